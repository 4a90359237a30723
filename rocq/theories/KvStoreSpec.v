(** Specification of the store of libblobd-kv: what a history of operations means. *)
From stdpp Require Import base numbers list list_numbers option gmap.
From Verif Require Import Util Bytes PageIOModel KvCodecModel KvCodecSpec KvLogModel KvLogSpec KvReadModel KvStoreModel PropertiesKvRead.
Open Scope N_scope.

(** A sane configuration: index and heap are whole large pages, the index is not
    empty and addresses fit the 39 + 9 bits of an entry; the hash has 32 bytes. *)
Record good_kconf (c : kconf) : Prop := {
  gk_log : good_conf (kc_log c);
  gk_pages : kc_spage c <= kc_lpage c /\ kc_lpage c <= 63;
  gk_base : 0 < kc_base c /\ kc_base c mod 2 ^ kc_lpage c = 0;
  gk_heap : kc_heap c mod 2 ^ kc_lpage c = 0;
  gk_addr : kc_base c + kc_heap c <= 2 ^ 48;
  gk_blake : forall raw, length (kc_blake c raw) = 32%nat /\ Forall is_byte (kc_blake c raw)
}.
(** A key a client may use: bytes, and not the empty key. *)
Definition good_key (raw : list N) : Prop := raw <> [] /\ Forall is_byte raw.
Definition valid_kevent (c : kconf) (e : kevent) : Prop :=
  match e with
  | KWriteInline raw val | KWriteHeap raw val _ => good_key raw /\ Forall is_byte val
  | KDelete raw => good_key raw
  | KLog e => valid_levent (kc_log c) e
  | KHead junk => N.of_nat (length junk) = kc_psize c
  | _ => True
  end.

(** The value a key has after a sequence of operations: that of the last
    operation on it, if that is a write. *)
Definition latest {K V} `{EqDecision K} (ops : list (K * option V)) (k : K) : option V :=
  foldl (fun v op => if bool_decide (fst op = k) then snd op else v) None ops.

(** No two keys of the history, nor [raw] and one of them, are mistaken for one
    another (only possible if two keys of more than 32 bytes have the same hash). *)
Definition no_collision (c : kconf) (ops : list (list N * option (list N))) (raw : list N) : Prop :=
  forall k, k ∈ (fst <$> ops) -> kc_key c k = kc_key c raw -> k = raw.

(** The operations inserted into the overlay so far: those before the persisted
    tail, except the ones the completer has not come to. *)
Definition applied (y : kstate) : nat := l_ntail (ks_log y) - length (l_apply (ks_log y)).

(** The stored form [t] (or its absence) denotes the value [v] (or its absence). *)
Definition shows (d : device) (t : option odata) (v : option (list N)) : Prop :=
  match t, v with
  | None, None => True
  | Some t, Some v => denotes d t v
  | _, _ => False
  end.

(** What the log on the device holds contains no address of a heap value. *)
Definition log_without_heap (c : kconf) (y : kstate) : Prop :=
  forall h t ops, log_load (kc_log c) (l_page (ks_log y)) (l_dev (ks_log y)) = Some (h, t, ops) ->
    forall k size off, TUpsert k (DHeap size off) ∉ ops.

(** Runs in which every crash finds such a log. *)
Inductive kreach (c : kconf) (y0 : kstate) : kstate -> Prop :=
| kr_init : kreach c y0 y0
| kr_step y e y' : kreach c y0 y -> valid_kevent c e -> kstep c y e = Some y' ->
    (e = KCrash -> log_without_heap c y /\ l_maxflush (ks_log y) <= lc_bufsize (kc_log c)) -> kreach c y0 y'.

(** Runs without a crash. *)
Inductive kpath (c : kconf) (y : kstate) : kstate -> Prop :=
| kp_refl : kpath c y y
| kp_step y1 e y2 : kpath c y y1 -> valid_kevent c e -> e <> KCrash -> kstep c y1 e = Some y2 -> kpath c y y2.
