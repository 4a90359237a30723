(** The HTTP server handling any number of requests at the same time.

    Models how blobd/src/server.rs:28-60 and axum run the handlers of
    ServerModel.v: each request is a task of its own; tasks interleave at the
    steps of their calls on the store, and the steps of one call interleave with
    those of others as in DirectModel.v.  Left out: a task dropped because its
    client went away (see C23 for what a dropped write can do), and the time at
    which parts of a body are received (a request has its whole body). *)
From stdpp Require Import base numbers list option.
From Verif Require Import Util PageIOModel DirectModel DirectSpec DirectSeqSpec ServerModel.
Open Scope N_scope.

(** What happens: request [j] arrives, request [j] is answered, a step of the
    store. *)
Inductive event := EReq (j : nat) (rq : request) | EAns (j : nat) (r : response) | EStore (l : label).
(** A handler: running, waiting for call [i] of which [seen] was visible so far,
    or finished. *)
Inductive hproc := HRun (p : prog) | HWait (i : nat) (k : list vis -> prog) (seen : list vis) | HOver.

Inductive hstep (s : server) (hs : list hproc) : event -> list hproc -> Prop :=
| hs_req rq : hstep s hs (EReq (length hs) rq) (hs ++ [HRun (handle s rq)])
| hs_ans j r : hs !! j = Some (HRun (Ret r)) -> hstep s hs (EAns j r) (<[j := HOver]> hs)
| hs_call j op k i : hs !! j = Some (HRun (Call op k)) -> hstep s hs (EStore (LCall i op)) (<[j := HWait i k []]> hs)
| hs_item j i k seen v : hs !! j = Some (HWait i k seen) -> is_final v = false ->
    hstep s hs (EStore (LVis i v)) (<[j := HWait i k (seen ++ [v])]> hs)
| hs_end j i k seen v : hs !! j = Some (HWait i k seen) -> is_final v = true ->
    hstep s hs (EStore (LVis i v)) (<[j := HRun (k (seen ++ [v]))]> hs)
| hs_tau : hstep s hs (EStore LTau) hs.
Inductive hsteps (s : server) : list event -> list hproc -> Prop :=
| hsteps_nil : hsteps s [] []
| hsteps_snoc es hs e hs' : hsteps s es hs -> hstep s hs e hs' -> hsteps s (es ++ [e]) hs'.

Definition store_label (e : event) : option label := match e with EStore l => Some l | _ => None end.
Definition store_labels (es : list event) : list label := omap store_label es.

(** The server runs on a formatted partition: the steps of the store are those of
    the partition, and the calls those of the handlers. *)
Inductive conc_run (s : server) (c : dcfg) (pages : list (list N)) (es : list event) : Prop :=
| conc_run_intro y0 y hs :
    fresh_partition c pages y0 -> dsteps c y0 (store_labels es) y -> sv_lpage s = dc_lpage c ->
    hsteps s es hs -> conc_run s c pages es.
