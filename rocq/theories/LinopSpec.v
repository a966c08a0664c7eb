(* Vocabulary for products of operators *)
From Verif Require Export LinopModel.

(* Operators as the code builds them: the identity never has a factor on its right
   and is never one. *)
Definition wf (o : oper) : Prop := o = [Identity] \/ (o <> [] /\ ~ In Identity o).

Definition finite_kind (k : kind) : Prop :=
  match k with Linear m b => exists p q, m = Fin p /\ b = Fin q | _ => True end.
Definition nonzero_kind (k : kind) : Prop := match k with Linear m _ => m <> Fin 0 | _ => True end.
Definition is_clip (k : kind) : bool := match k with Clip _ _ | NaNClip _ _ => true | _ => false end.
Definition no_clip (o : oper) : Prop := Forall (fun k => is_clip k = false) o.
Definition finite_linear (o : oper) : Prop := Forall finite_kind o.
Definition nonzero_linear (o : oper) : Prop := Forall nonzero_kind o.

Definition invertible (k : kind) : Prop :=
  match k with
  | Identity => True
  | Lambda _ _ f g => (forall x, g (f x) = x) /\ (forall x, f (g x) = x)
  | Linear m b => exists p q, m = Fin p /\ b = Fin q /\ p <> 0%Qc
  | Clip _ _ | NaNClip _ _ => False
  end.

(* an operator whose inverse is defined: clips, and invertible functions *)
Definition reversible (k : kind) : Prop :=
  match k with Clip _ _ | NaNClip _ _ => True | _ => invertible k end.

Fixpoint iter {A} (n : nat) (f : A -> A) (x : A) : A :=
  match n with O => x | S n' => f (iter n' f x) end.

(* x is between the limits (a limit that is absent or not a number does not count) *)
Definition within (cmin cmax : option num) (x : num) : Prop :=
  (forall c, cmin = Some c -> c <> NaN -> n_leb c x = true) /\
  (forall c, cmax = Some c -> c <> NaN -> n_leb x c = true).

(* along the evaluation of the product at x, every clip sees a value within its limits *)
Fixpoint unclipped (o : oper) (x : num) : Prop :=
  match o with
  | [] => True
  | k :: o' =>
      unclipped o' x /\
      match k with Clip a b | NaNClip a b => within a b (eval o' x) | _ => True end
  end.

Definition not_lambda (k : kind) : Prop := match k with Lambda _ _ _ _ => False | _ => True end.
