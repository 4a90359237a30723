(** Calls whose future is dropped while they wait: the server drops the future
    of a request handler when the client disconnects (blobd/src/endpoint/
    write_object.rs:27-58 awaits the operation in the handler itself).

    A dropped call makes no further steps and its read guard is released.  A
    device write it was waiting for was handed to another thread
    (backing_store/file.rs:43-53 [spawn_blocking]; uring.rs sends it to its
    threads) and still happens. *)
From stdpp Require Import base numbers list option gmap.
From Verif Require Import Util PageIOModel DirectModel.
Open Scope N_scope.

Record xsys := { x_sys : dsys; x_orphans : list (N * list N) }.

(** The data of the device write a call waits for (write_object.rs:137-145,
    create_object.rs:89-92). *)
Definition pending_write (c : dcfg) (junk : N -> N) (p : pc) : option (N * list N) :=
  match p with
  | PCreate2 m msize moff _ =>
      Some (moff, meta_encode m ++ ((fun i => junk (N.of_nat i)) <$> seq 0 (N.to_nat (metadata_page_size (dc_spage c) msize - msize))))
  | PWrite4 _ _ w buf _ =>
      '(amount, addr) ← w_targets w !! w_page w;
      Some (addr, take (N.to_nat amount) buf ++
        ((fun i => junk (N.of_nat i)) <$> seq 0 (N.to_nat (padded_len Direct (dc_spage c) amount - amount))))
  | _ => None
  end.
(** Points at which a call waits and can be dropped. *)
Definition waits (p : pc) : bool :=
  match p with
  | PStart _ | PCreate2 _ _ _ _ | PCreate4 _ _ _ _ _ | PWrite1 _ _ _ | PWrite2 _ _ _ _ _ | PWrite4 _ _ _ _ _
  | PCommit2 _ _ _ | PCommit5 _ _ _ _ | PReap2 _ _ _ _ | PRead _ _ _ => true
  | _ => false
  end.
(** Dropping the guard taken at object/mod.rs:173. *)
Definition drop_guard (h : shared) (p : pc) : shared :=
  match p with
  | PWrite4 r _ _ _ _ =>
      match h_objs h !! r with
      | Some ob => set_objs h (<[r := set_b_readers ob (pred (b_readers ob))]> (h_objs h))
      | None => h
      end
  | _ => h
  end.

Inductive xlabel := XL (l : label) | XDropped (i : nat) | XLanded.
Inductive xstep (c : dcfg) : xsys -> xlabel -> xsys -> Prop :=
| xstep_sys x l y : dstep c (x_sys x) l y -> xstep c x (XL l) {| x_sys := y; x_orphans := x_orphans x |}
| xstep_drop x i p junk :
    y_procs (x_sys x) !! i = Some p -> waits p = true ->
    xstep c x (XDropped i)
      {| x_sys := {| y_sh := drop_guard (y_sh (x_sys x)) p; y_procs := <[i := PDone]> (y_procs (x_sys x)) |};
         x_orphans := x_orphans x ++ option_list (pending_write c junk p) |}
| xstep_land x o1 addr data o2 :
    x_orphans x = o1 ++ (addr, data) :: o2 ->
    xstep c x XLanded
      {| x_sys := {| y_sh := set_dev (y_sh (x_sys x)) (dev_write (h_dev (y_sh (x_sys x))) addr data); y_procs := y_procs (x_sys x) |};
         x_orphans := o1 ++ o2 |}.
Inductive xsteps (c : dcfg) : xsys -> list xlabel -> xsys -> Prop :=
| xsteps_nil x : xsteps c x [] x
| xsteps_snoc x ls x1 l x2 : xsteps c x ls x1 -> xstep c x1 l x2 -> xsteps c x (ls ++ [l]) x2.
(** What clients see. *)
Definition seen_labels (ls : list xlabel) : list label := ls ≫= (fun l => match l with XL LTau => [] | XL l => [l] | _ => [] end).
