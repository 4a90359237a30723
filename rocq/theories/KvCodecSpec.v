(** Specification for the serialised forms of libblobd-kv. *)
From stdpp Require Import base numbers list list_numbers option.
From Verif Require Import Bytes KvCodecModel.
Open Scope N_scope.

(** What the store can be asked to hold: keys as produced from an API key (at
    most 32 bytes kept literally, longer ones as a 32-byte hash), values inline
    or at a sector-aligned address with 1 to 2^24 bytes. *)
Definition valid_key (k : okey) : Prop :=
  match k with
  | KHash h => length h = 32%nat /\ Forall is_byte h
  | KLit l => (length l <= 32)%nat /\ Forall is_byte l
  end.
Definition valid_data (d : odata) : Prop :=
  match d with
  | DInline i => N.of_nat (length i) < 2 ^ 32 /\ Forall is_byte i
  | DHeap size off => 1 <= size <= 2 ^ 24 /\ off mod 512 = 0 /\ off < 2 ^ 48
  end.
Definition valid_pair (e : okey * odata) : Prop := valid_key (fst e) /\ valid_data (snd e).
(** The documented sizes: 1 + key length (or 33), and for the value 1 + length
    (5 + length from 127 bytes on), or 8 for an address. *)
Definition key_size (k : okey) : nat := match k with KHash _ => 33 | KLit l => 1 + length l end.
Definition data_size (d : odata) : nat :=
  match d with DInline i => if (length i <? 127)%nat then 1 + length i else 5 + length i | DHeap _ _ => 8 end.
Definition pair_size (e : okey * odata) : nat := key_size (fst e) + data_size (snd e).
Definition pairs_size (ts : list (okey * odata)) : nat := sum_list (pair_size <$> ts).
