(* C05, C06: lookup tables (utils/lut.py). *)
From Verif Require Import Base LutModel LutSpec LutProofs.
Local Open Scope Qc_scope.

(* C05: whatever the sequence of add and replace calls on a cleared table (each
   with as many y as x values), the x values stay strictly increasing and the
   table holds exactly the points that the sequence asks for. *)
Theorem C05_table_content :
  forall ops d t,
  Forall equal_lengths ops -> lut_run ops (lut_clear d) = (Ok tt, t) ->
  (lxy t = None /\ ops = []) \/
  exists x y, lxy t = Some (x, y) /\ length x = length y /\ strictly_increasing x /\
    forall v w, In (v, w) (combine x y) <-> spec_value v ops = Some w.
Proof. exact lut_content. Qed.
Print Assumptions C05_table_content.

Example C05_table_content_ex :
  let ops := [LAdd [q 2; q 1] [q 5; q 7]; LAdd [q 2; q 3; q 2] [q 1; q 1; q 1]; LReplace [q 1] [q 0]] in
  Forall equal_lengths ops /\ fst (lut_run ops (lut_clear None)) = Ok tt /\
  spec_value (q 2) ops = Some (q 7) /\ spec_value (q 1) ops = Some (q 0).
Proof.
  cbv zeta. split; [repeat constructor|]. split; [vm_compute; reflexivity|].
  split; apply Qc_opt_eq; vm_compute; reflexivity.
Qed.

(* The only failing call is one with no data on a table that has none. *)
Theorem C05_only_empty_fails :
  forall ops d t op,
  Forall equal_lengths ops -> equal_lengths op -> lut_run ops (lut_clear d) = (Ok tt, t) ->
  (exists e t', lut_apply op t = (Err e, t')) <->
  ops = [] /\ (match op with LAdd x _ | LReplace x _ => x end) = [].
Proof. exact lut_step_error. Qed.
Print Assumptions C05_only_empty_fails.

(* Without the equal-lengths condition the claim is false: a call with fewer y
   than x values succeeds and corrupts entries it does not mention. *)
Theorem C05_unequal_lengths_refuted :
  exists t1 t2, lut_run two_points (lut_clear None) = (Ok tt, t1) /\
    lut_apply short_y t1 = (Ok tt, t2) /\
    lookup Qc_eqb (q 10) (points t1) = Some (q 1) /\ lookup Qc_eqb (q 10) (points t2) = Some (q 2) /\
    lookup Qc_eqb (q 20) (points t1) = Some (q 2) /\ lookup Qc_eqb (q 20) (points t2) = None.
Proof. exact mismatch_corrupts. Qed.
Print Assumptions C05_unequal_lengths_refuted.

(* C06: evaluation of a table that has points. *)
Theorem C06_interpolation :
  forall ops d t x y,
  Forall equal_lengths ops -> lut_run ops (lut_clear d) = (Ok tt, t) -> lxy t = Some (x, y) ->
  (* exact at the stored points *)
  (forall i a b v, nth_error x i = Some a -> nth_error y i = Some b -> v = a -> lut_call t v = Ok (Some b)) /\
  (* on the straight line between neighbours *)
  (forall i x0 x1 y0 y1 v,
     nth_error x i = Some x0 -> nth_error x (S i) = Some x1 ->
     nth_error y i = Some y0 -> nth_error y (S i) = Some y1 ->
     x0 <= v -> v <= x1 ->
     exists r, lut_call t v = Ok (Some r) /\ r = y0 + (y1 - y0) * ((v - x0) / (x1 - x0)) /\
       ((y0 <= r /\ r <= y1) \/ (y1 <= r /\ r <= y0))) /\
  (* end values outside *)
  (forall x0 y0 v, nth_error x 0 = Some x0 -> nth_error y 0 = Some y0 -> v < x0 ->
     lut_call t v = Ok (Some y0)) /\
  (forall xl yl v, nth_error x (length x - 1) = Some xl -> nth_error y (length y - 1) = Some yl -> xl < v ->
     lut_call t v = Ok (Some yl)).
Proof. exact lut_call_spec. Qed.
Print Assumptions C06_interpolation.

Example C06_interpolation_ex :
  let ops := [LAdd [q 4; q 0] [q 10; q 2]] in
  match lut_run ops (lut_clear None) with
  | (Ok _, t) => match lut_call t (q 1) with Ok (Some r) => Qc_eqb r (q 4) | _ => false end
  | _ => false
  end = true.
Proof. vm_compute. reflexivity. Qed.

Theorem C06_empty_table : forall d v, lut_call (lut_clear d) v = Ok d.
Proof. exact lut_call_empty. Qed.
Print Assumptions C06_empty_table.

(* An empty table that was given empty arrays can no longer be evaluated. *)
Theorem C06_empty_table_refuted :
  exists t, lut_apply (LAdd [] []) (lut_clear (Some 0)) = (Err ValueError, t) /\
    lut_call (lut_clear (Some 0)) 1 = Ok (Some 0) /\ lut_call t 1 = Err TypeError.
Proof. exact empty_add_corrupts. Qed.
Print Assumptions C06_empty_table_refuted.
