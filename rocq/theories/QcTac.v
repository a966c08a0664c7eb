(* Exact rational arithmetic with Leibniz equality (stdlib Qc), and tactics that
   bring goals on Qc to the linear/non-linear arithmetic tactics on Q. *)
From Coq Require Export QArith Qcanon Lqa.
From Coq Require Import Qround.
From Coq Require Import Qfield Bool.
Local Open Scope Qc_scope.

Lemma Qc_eq_iff (x y : Qc) : x = y <-> (this x == this y)%Q.
Proof. split; [intros ->; reflexivity | apply Qc_is_canon]. Qed.

Lemma this_plus (x y : Qc) : (this (x + y) == this x + this y)%Q.
Proof. apply Qred_correct. Qed.
Lemma this_mult (x y : Qc) : (this (x * y) == this x * this y)%Q.
Proof. apply Qred_correct. Qed.
Lemma this_opp (x : Qc) : (this (- x) == - this x)%Q.
Proof. apply Qred_correct. Qed.
Lemma this_minus (x y : Qc) : (this (x - y) == this x - this y)%Q.
Proof. unfold Qcminus. rewrite this_plus, this_opp. reflexivity. Qed.
Lemma this_inv (x : Qc) : (this (/ x) == / this x)%Q.
Proof. apply Qred_correct. Qed.
Lemma this_Q2Qc (q : Q) : (this (Q2Qc q) == q)%Q.
Proof. apply Qred_correct. Qed.
Lemma this_0 : (this 0 == 0)%Q. Proof. reflexivity. Qed.
Lemma this_1 : (this 1 == 1)%Q. Proof. reflexivity. Qed.

Global Hint Rewrite this_plus this_mult this_opp this_minus this_inv this_Q2Qc : qc.

Ltac qc_hyp H :=
  match type of H with
  | @eq Qc _ _ => apply Qc_eq_iff in H
  | ~ (@eq Qc _ _) => rewrite Qc_eq_iff in H
  | Qcle _ _ => unfold Qcle in H
  | Qclt _ _ => unfold Qclt in H
  | ~ Qcle _ _ => unfold Qcle in H
  | ~ Qclt _ _ => unfold Qclt in H
  end.

(* Translate a goal about Qc, and the hypotheses about Qc, to Q. *)
Ltac qc2q :=
  intros;
  repeat match goal with H : _ |- _ => qc_hyp H end;
  try match goal with |- ~ _ => intro end;
  repeat match goal with H : _ |- _ => qc_hyp H end;
  try match goal with
  | |- @eq Qc _ _ => apply Qc_is_canon
  | |- Qcle _ _ => unfold Qcle
  | |- Qclt _ _ => unfold Qclt
  end;
  autorewrite with qc in *;
  change (this 0) with 0%Q in *; change (this 1) with 1%Q in *.

Ltac qclra := qc2q; lra.
Ltac qcnra := qc2q; nra.

(* Boolean comparisons *)
Definition Qc_eqb (x y : Qc) : bool := Qeq_bool (this x) (this y).
Definition Qc_leb (x y : Qc) : bool := Qle_bool (this x) (this y).
Definition Qc_ltb (x y : Qc) : bool := negb (Qle_bool (this y) (this x)).

Lemma Qc_eqb_spec x y : Qc_eqb x y = true <-> x = y.
Proof. unfold Qc_eqb. rewrite Qeq_bool_iff. symmetry. apply Qc_eq_iff. Qed.
Lemma Qc_eqb_false x y : Qc_eqb x y = false <-> x <> y.
Proof.
  rewrite <- Qc_eqb_spec. destruct (Qc_eqb x y); intuition congruence.
Qed.
Lemma Qc_leb_le x y : Qc_leb x y = true <-> x <= y.
Proof. unfold Qc_leb. apply Qle_bool_iff. Qed.
Lemma Qc_leb_gt x y : Qc_leb x y = false <-> y < x.
Proof.
  unfold Qc_leb, Qclt. rewrite <- not_true_iff_false, Qle_bool_iff.
  split; [apply Qnot_le_lt | apply Qlt_not_le].
Qed.
Lemma Qc_ltb_lt x y : Qc_ltb x y = true <-> x < y.
Proof. unfold Qc_ltb. rewrite negb_true_iff. apply (Qc_leb_gt y x). Qed.
Lemma Qc_ltb_ge x y : Qc_ltb x y = false <-> y <= x.
Proof. unfold Qc_ltb. rewrite negb_false_iff. apply (Qc_leb_le y x). Qed.

Ltac qc_bool :=
  repeat match goal with
  | H : Qc_eqb _ _ = true |- _ => apply Qc_eqb_spec in H
  | H : Qc_eqb _ _ = false |- _ => apply Qc_eqb_false in H
  | H : Qc_leb _ _ = true |- _ => apply Qc_leb_le in H
  | H : Qc_leb _ _ = false |- _ => apply Qc_leb_gt in H
  | H : Qc_ltb _ _ = true |- _ => apply Qc_ltb_lt in H
  | H : Qc_ltb _ _ = false |- _ => apply Qc_ltb_ge in H
  end.

Definition Qc_of_Z (z : Z) : Qc := Q2Qc (inject_Z z).
Definition Qc_min (x y : Qc) : Qc := if Qc_leb x y then x else y.
Definition Qc_max (x y : Qc) : Qc := if Qc_leb x y then y else x.
Definition Qc_abs (x : Qc) : Qc := if Qc_leb 0 x then x else - x.

Lemma Qc_lt_le_dec_bool x y : {x < y} + {y <= x}.
Proof. destruct (Qc_ltb x y) eqn:E; qc_bool; auto. Defined.

Lemma Qc_of_Z_plus a b : Qc_of_Z (a + b) = Qc_of_Z a + Qc_of_Z b.
Proof. unfold Qc_of_Z. qc2q. rewrite inject_Z_plus. reflexivity. Qed.
Lemma Qc_of_Z_mult a b : Qc_of_Z (a * b) = Qc_of_Z a * Qc_of_Z b.
Proof. unfold Qc_of_Z. qc2q. rewrite inject_Z_mult. reflexivity. Qed.
Lemma Qc_of_Z_opp a : Qc_of_Z (- a) = - Qc_of_Z a.
Proof. unfold Qc_of_Z. qc2q. rewrite inject_Z_opp. reflexivity. Qed.
Lemma Qc_of_Z_minus a b : Qc_of_Z (a - b) = Qc_of_Z a - Qc_of_Z b.
Proof.
  unfold Z.sub. rewrite Qc_of_Z_plus, Qc_of_Z_opp. reflexivity.
Qed.
Lemma Qc_of_Z_le a b : Qc_of_Z a <= Qc_of_Z b <-> (a <= b)%Z.
Proof.
  unfold Qc_of_Z, Qcle. rewrite !this_Q2Qc. rewrite <- Zle_Qle. reflexivity.
Qed.
Lemma Qc_of_Z_lt a b : Qc_of_Z a < Qc_of_Z b <-> (a < b)%Z.
Proof.
  unfold Qc_of_Z, Qclt. rewrite !this_Q2Qc. rewrite <- Zlt_Qlt. reflexivity.
Qed.
Lemma Qc_of_Z_inj a b : Qc_of_Z a = Qc_of_Z b <-> a = b.
Proof.
  split; [|intros ->; reflexivity]. unfold Qc_of_Z. intros E.
  apply Qc_eq_iff in E. rewrite !this_Q2Qc in E. now apply inject_Z_injective.
Qed.

(* For closed examples: decide an equation between optional numbers. *)
Lemma Qc_opt_eq (o : option Qc) (w : Qc) :
  match o with Some v => Qc_eqb v w | None => false end = true -> o = Some w.
Proof. destruct o; [|discriminate]. rewrite Qc_eqb_spec. now intros ->. Qed.

(* Qcanon opens Qc_scope globally; make Z the default again. *)
Global Open Scope Z_scope.
