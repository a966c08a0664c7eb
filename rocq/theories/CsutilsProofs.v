From Verif Require Import CsutilsSpec.
From Coq Require Import Lia.
Local Open Scope list_scope.
Local Open Scope nat_scope.

Section Eval.
Context {Z E R : Type} (zero : R) (cs : Z -> E -> option R) (np : option (list Z -> list E -> option (list (list R)))).
Lemma product_app a b : product (a ++ b) = product a * product b.
Proof. induction a as [|n a IH]; cbn; [lia|]. rewrite IH. lia. Qed.
Lemma table_loop zs es : agrees zero cs np -> table zero cs np zs es = loop zero cs zs es.
Proof.
  intros H. unfold table. destruct np as [f|] eqn:F; [|reflexivity]. destruct (f zs es) as [r|] eqn:G; [|reflexivity]. exact (H f zs es r eq_refl G).
Qed.
Lemma loop_length zs es : List.length (List.concat (loop zero cs zs es)) = List.length zs * List.length es.
Proof. unfold loop. induction zs as [|z zs IH]; [reflexivity|]. cbn. rewrite app_length, map_length, IH. reflexivity. Qed.
Lemma loop_nth zs es i j z e : nth_error zs i = Some z -> nth_error es j = Some e ->
  nth_error (List.concat (loop zero cs zs es)) (i * List.length es + j) = Some (value zero cs z e).
Proof.
  intros Hz He. assert (Hj : j < List.length es) by (apply nth_error_Some; congruence). revert i Hz. unfold loop. induction zs as [|z0 zs IH]; intros [|i] Hz; cbn [nth_error] in Hz; try discriminate.
  - cbn [map List.concat Nat.mul Nat.add]. rewrite nth_error_app1 by (rewrite map_length; exact Hj). assert (z0 = z) as -> by congruence. now apply map_nth_error.
  - cbn [map List.concat]. rewrite nth_error_app2 by (rewrite map_length; lia). rewrite map_length.
    replace (S i * List.length es + j - List.length es) with (i * List.length es + j) by lia. now apply IH.
Qed.
Lemma flatten_element {X} (a : arg X) k x : element a k = Some x -> nth_error (flatten a) k = Some x.
Proof. destruct a; cbn; [destruct (Nat.eqb_spec k 0) as [->|]; [tauto|discriminate]|tauto]. Qed.
Lemma flatten_size {X} (a : arg X) : wf a -> List.length (flatten a) = size a.
Proof. destruct a; cbn; auto. Qed.
Lemma shape_size {X} (a : arg X) : product (shape_of a) = size a.
Proof. destruct a; reflexivity. Qed.
Lemma eval_array z e : agrees zero cs np -> wf z -> wf e -> isarray z = true \/ isarray e = true -> exists d,
  eval zero cs np z e = Array (shape_of z ++ shape_of e) d /\ wf (eval zero cs np z e) /\
  forall i j a b, element z i = Some a -> element e j = Some b -> nth_error d (i * size e + j) = Some (match cs a b with Some r => r | None => zero end).
Proof.
  intros H Hz He Ha.
  assert (X : eval zero cs np z e = Array (shape_of z ++ shape_of e) (List.concat (table zero cs np (flatten z) (flatten e)))).
  { destruct z, e; try reflexivity. destruct Ha; discriminate. }
  rewrite X, table_loop by exact H. eexists. split; [reflexivity|]. split.
  - cbn. rewrite loop_length, product_app, !shape_size, !flatten_size by assumption. reflexivity.
  - intros i j a b Hi Hj. rewrite <- (flatten_size e He). apply (loop_nth (flatten z) (flatten e) i j a b); now apply flatten_element.
Qed.
Lemma eval_number z e : eval zero cs np (Number z) (Number e) = Number (match cs z e with Some r => r | None => zero end).
Proof. reflexivity. Qed.
Lemma eval_shapes z e s t dz de :
  (exists d, eval zero cs np (Array s dz) (Number e) = Array s d) /\ (exists d, eval zero cs np (Number z) (Array t de) = Array t d) /\
  (exists d, eval zero cs np (Array s dz) (Array t de) = Array (s ++ t) d).
Proof. cbn. rewrite app_nil_r. repeat split; eexists; reflexivity. Qed.
End Eval.
