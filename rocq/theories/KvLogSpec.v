(** Specification for the log of libblobd-kv. *)
From stdpp Require Import base numbers list option.
From Verif Require Import Util Bytes PageIOModel KvCodecModel KvCodecSpec KvLogModel.
Open Scope N_scope.

(** A sane configuration: log and replay buffer are whole numbers of pages and
    not empty; a page holds the two 8-byte pointers. *)
Definition good_conf (c : lconf) : Prop :=
  0 < lc_len c /\ lc_len c mod 2 ^ lc_spage c = 0 /\
  0 < lc_bufsize c /\ lc_bufsize c mod 2 ^ lc_spage c = 0 /\ 9 <= lc_spage c.

(** Operations the API can produce. *)
Definition valid_task (t : ltask) : Prop :=
  match t with TUpsert k d => valid_key k /\ valid_data d | TDelete k => valid_key k end.
(** Buffers have a page's size. *)
Definition valid_levent (c : lconf) (e : levent) : Prop :=
  match e with
  | ERecv t => valid_task t
  | EComplete junk | ECommitEnd junk => N.of_nat (length junk) = 2 ^ lc_spage c
  | _ => True
  end.

(** Elements [a] (included) to [b] (excluded). *)
Definition slice {A} (l : list A) (a b : nat) : list A := take (b - a) (drop a l).
