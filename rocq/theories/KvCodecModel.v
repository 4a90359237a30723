(** Keys, values and index pages of libblobd-kv.

    Models libblobd-kv/src/object.rs and libblobd-kv/src/util.rs:11-46. *)
From stdpp Require Import base numbers list option.
From Verif Require Import Util Bytes.
Open Scope N_scope.

(** object.rs:51-56. *)
Definition kv_lpage_pow2 : N := 24.
Definition kv_spage_pow2_min : N := 9.
Definition object_size_max : N := 2 ^ kv_lpage_pow2.
Definition tuple_inline_threshold : N := 7.

(** object.rs:58-62 [ObjectTupleKey]. *)
Inductive okey := KHash (h : list N) | KLit (l : list N).
(** object.rs:103-108 [ObjectTupleData]. *)
Inductive odata := DInline (d : list N) | DHeap (size off : N).
#[global] Instance okey_eq_dec : EqDecision okey.
Proof. solve_decision. Defined.
#[global] Instance odata_eq_dec : EqDecision odata.
Proof. solve_decision. Defined.

(** object.rs:65-81 [from_raw_and_hash], [from_raw]; blake3 is a parameter. *)
Definition key_from_raw (blake : list N -> list N) (raw : list N) : okey :=
  if N.of_nat (length raw) <=? 32 then KLit raw else KHash (blake raw).
(** object.rs:83-88 [hash]. *)
Definition key_hash (blake : list N -> list N) (k : okey) : list N :=
  match k with KHash h => h | KLit l => blake l end.

(** [u8!], [u32!] panic when the value does not fit. *)
Definition to_u8 (v : N) : option N := if v <? 2 ^ 8 then Some v else None.
Definition to_u32 (v : N) : option N := if v <? 2 ^ 32 then Some v else None.

(** object.rs:90-101 [serialise]. *)
Definition key_serialise (k : okey) : option (list N) :=
  match k with
  | KHash h => Some (255 :: h)
  | KLit l => n ← to_u8 (N.of_nat (length l)); Some (n :: l)
  end.

(** util.rs:21-25 [consume]: the bytes and the rest; [None] is the index panic. *)
Definition consume (raw : list N) (n : N) : option (list N * list N) :=
  if n <=? N.of_nat (length raw) then Some (take (N.to_nat n) raw, drop (N.to_nat n) raw) else None.

(** object.rs:103-108 [deserialise]; returns the key and the unread bytes. *)
Definition key_deserialise (raw : list N) : option (okey * list N) :=
  match raw with
  | [] => None
  | n :: raw =>
      if n =? 255 then '(h, raw) ← consume raw 32; Some (KHash h, raw)
      else '(l, raw) ← consume raw n; Some (KLit l, raw)
  end.

(** object.rs:126-147 [serialise]. *)
Definition data_serialise (d : odata) : option (list N) :=
  match d with
  | DInline i =>
      let n := N.of_nat (length i) in
      if n <? 127 then n8 ← to_u8 n; Some ([N.lor n8 128] ++ i)
      else n32 ← to_u32 n; Some ([N.lor 127 128] ++ le_bytes 4 n32 ++ i)
  | DHeap size off =>
      if N.shiftr off 9 <? 2 ^ 39 then
        if size =? 0 then None else
        Some (be_bytes 5 (N.shiftr off 9) ++ le_bytes 3 (size - 1))
      else None
  end.

(** object.rs:149-163 [deserialise]. *)
Definition data_deserialise (raw : list N) : option (odata * list N) :=
  match raw with
  | [] => None
  | b :: rest =>
      if negb (N.land b 128 =? 0) then
        let ilen := N.land b 127 in
        '(len, rest) ← (if ilen <? 127 then Some (ilen, rest)
                        else '(l4, rest) ← consume rest 4; Some (le_val l4, rest));
        '(i, rest) ← consume rest len;
        Some (DInline i, rest)
      else
        '(o5, rest) ← consume raw 5;
        '(s3, rest) ← consume rest 3;
        Some (DHeap (le_val s3 + 1) (N.shiftl (be_val o5) 9), rest)
  end.

(** object.rs:166-169. *)
Definition bundle_index (hash : list N) (bundle_count : N) : option N :=
  h ← buf_read hash 24 8; if bundle_count =? 0 then None else Some (be_val h mod bundle_count).

(** object.rs:171-195 [BundleDeserialiser]; each entry takes at least two bytes,
    so [length raw] is enough fuel. *)
Fixpoint bundle_deser (fuel : nat) (raw : list N) : option (list (okey * odata)) :=
  match raw with
  | [] => Some []
  | b :: _ =>
      if b =? 0 then Some [] else
      match fuel with
      | O => None
      | S fuel =>
          '(k, raw) ← key_deserialise raw;
          '(d, raw) ← data_deserialise raw;
          l ← bundle_deser fuel raw;
          Some ((k, d) :: l)
      end
  end.
Definition bundle_read (raw : list N) : option (list (okey * odata)) := bundle_deser (length raw) raw.

(** object.rs:201-204: the entries one after another. *)
Fixpoint entries_serialise (ts : list (okey * odata)) : option (list N) :=
  match ts with
  | [] => Some []
  | (k, d) :: ts => a ← key_serialise k; b ← data_serialise d; r ← entries_serialise ts; Some (a ++ b ++ r)
  end.
(** object.rs:197-215 [serialise_bundle]; [junk] is the uninitialised buffer of
    one page ([set_len]).  Writing past the page's capacity is a panic. *)
Definition bundle_serialise (junk : list N) (ts : list (okey * odata)) : option (list N) :=
  raw ← entries_serialise ts;
  if N.of_nat (length junk) <? N.of_nat (length raw) then None else
  if N.of_nat (length raw) <? N.of_nat (length junk)
  then Some (raw ++ [0] ++ drop (length raw + 1) junk)
  else Some raw.
