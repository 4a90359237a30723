(** What it means for a record's bytes to describe an object. *)
From stdpp Require Import base numbers list option.
From Verif Require Import Util Bytes LayoutModel MetaModel.
Open Scope N_scope.

(** Every accessor of the record returns what was asked for at creation, with
    the given current state, next link (0 = none) and record size exponent. *)
Record decodes (spage lpage : N) (raw : list N) (r : create_req) (state next pow2 : N) : Prop := {
  dc_state : meta_state raw = Some state;
  dc_pow2 : meta_size_pow2 raw = Some pow2;
  dc_next : meta_next raw = Some next;
  dc_created : meta_created_ms raw = Some (cr_created_ms r);
  dc_size : meta_size raw = Some (cr_size r);
  dc_id : meta_id raw = Some (cr_id r);
  dc_key : meta_key raw = Some (cr_key r);
  dc_lpages : forall i p, cr_lpages r !! i = Some p -> meta_lpage raw (N.of_nat i) = Some p;
  dc_tails : forall i p, cr_tails r !! i = Some p -> meta_tail_page spage lpage raw (N.of_nat i) = Some p;
  dc_assoc : meta_assoc_data spage lpage raw = Some (cr_assoc r);
}.

(** The values fit their fields, and the page lists have the lengths the
    object's layout asks for. *)
Record valid_req (spage lpage : N) (r : create_req) : Prop := {
  vr_key : N.of_nat (length (cr_key r)) < 2 ^ 16;
  vr_assoc : N.of_nat (length (cr_assoc r)) < 2 ^ 16;
  vr_size : cr_size r < 2 ^ 40;
  vr_id : cr_id r < 2 ^ 128;
  vr_created : cr_created_ms r < 2 ^ 48;
  vr_addrs : forall p, p ∈ cr_lpages r ++ cr_tails r -> p < 2 ^ 48;
  vr_layout : exists t, calc_object_layout spage lpage (2 ^ 64) (cr_size r) = Some (N.of_nat (length (cr_lpages r)), t)
                        /\ tps_len t = N.of_nat (length (cr_tails r));
}.
