From Coq Require Import String.
From Verif Require Import TextProofs ExprModel ExprSpec ExprProofs.
From Coq Require Import Lia.
Close Scope string_scope.
Local Open Scope nat_scope.
#[local] Arguments oneof : simpl never.
#[local] Arguments letter : simpl never.
#[local] Arguments digit : simpl never.
#[local] Arguments upper : simpl never.
#[local] Arguments txt : simpl never.
#[local] Arguments ch : simpl never.
#[local] Arguments ascii_eqb : simpl never.
#[local] Arguments chars_eqb : simpl never.
#[local] Arguments infix : simpl never.
#[local] Arguments among : simpl never.
#[local] Arguments opn : simpl never.

Lemma chars_eqb_refl x : chars_eqb x x = true. Proof. now apply chars_eqb_spec. Qed.
Lemma chars_eqb_neq x y : x <> y -> chars_eqb x y = false.
Proof. intros H. destruct (chars_eqb x y) eqn:E; [|reflexivity]. apply chars_eqb_spec in E. contradiction. Qed.
Lemma among_In l x : among l x = true <-> In x l.
Proof.
  unfold among. rewrite existsb_exists. split.
  - intros (y & I & E). apply chars_eqb_spec in E. now subst y.
  - intros I. exists x. split; [exact I|]. apply chars_eqb_refl.
Qed.
Lemma infix_head c p t : oneof t c = false -> infix (c :: p) t = false.
Proof.
  induction t as [|d t IH]; intros H; [reflexivity|]. unfold oneof in H. cbn [existsb] in H. apply orb_false_iff in H. destruct H as [H1 H2].
  unfold infix. cbn [starts]. rewrite H1. now apply IH.
Qed.
Lemma letter_not_op c : letter c = true -> oneof (txt "+-*/^") c = false.
Proof. intros L. apply negb_true_iff. refine (use_implb _ _ _ L). revert c L. intros c _. revert c. by_char. Qed.

Section Eval.
Context {V : Type} (A : alg V).
Notation eval_stack := (eval_stack A).
Lemma eval_S n op s m : eval_stack (S n) (op :: s) m =
          if chars_eqb op uminus then
            let! (v, _, s, m) := eval_stack n s m in
            let! w := v_neg A v in Ok (w, None, s, m)
          else if infix op (txt "+-*/^") then
            let! (b, _, s, m) := eval_stack n s m in
            let! (a, _, s, m) := eval_stack n s m in
            let! w := opn A op a b in Ok (w, None, s, m)
          else if chars_eqb (map upper op) (txt "PI") then Ok (v_pi A, None, s, m)
          else if chars_eqb (map upper op) (txt "E") then Ok (v_e A, None, s, m)
          else if chars_eqb op nanone || chars_eqb op nanzero then
            let! (v, o, s, m) := eval_stack n s m in
            let! w := v_nan A (chars_eqb op nanone) v in
            Ok (w, o, s, match o with Some x => put x w m | None => m end)
          else if among fn_names op then
            let! (v, _, s, m) := eval_stack n s m in
            let! w := v_fn A op v in Ok (w, None, s, m)
          else match op with
               | c :: _ =>
                   if letter c then
                     match get op m with
                     | Some v => Ok (v, Some op, s, m)
                     | None => Ok (v_zero A, None, s, m)
                     end
                   else let! v := v_num A op in Ok (v, None, s, m)
               | [] => Err IndexError
               end.
Proof. reflexivity. Qed.
Fixpoint own (e : tree) : owner :=
  match e with
  | Var x => Some x
  | Pos a => own a
  | Fun f a => if chars_eqb f nanone || chars_eqb f nanzero then own a else None
  | _ => None
  end.
Lemma own_bare e : bare e = false -> own e = None.
Proof.
  induction e; cbn [bare own]; intros H; try reflexivity; try discriminate.
  - destruct (chars_eqb f nanone || chars_eqb f nanzero); [apply IHe; exact H|reflexivity].
  - auto.
Qed.
Lemma number_step n m x s mm : mantissa_ok m -> eval_stack (S n) ((m ++ x) :: s) mm = let! v := v_num A (m ++ x) in Ok (v, None, s, mm).
Proof.
  intros (a & b & NA & DA & _ & M). destruct a as [|c a]; [congruence|]. inversion DA; subst.
  assert (E : exists q, m ++ x = c :: q) by (destruct M as [-> | ->]; cbn [app]; eauto). destruct E as (q & ->). clear M DA.
  destruct (digit_facts c H1) as (S1 & S2 & S3 & S4 & S5 & S6). rewrite eval_S.
  assert (N : chars_eqb (c :: q) uminus = false) by (apply chars_eqb_neq; intros E; assert (c = ch 117) by (vm_compute in E |- *; congruence); subst c; discriminate H1).
  rewrite N, infix_head by exact S6. cbn [map]. rewrite S5.
  assert (D : forall p, digit c = true -> forall d r, p = d :: r -> digit d = false -> chars_eqb (c :: q) p = false).
  { intros p _ d r -> ND. apply chars_eqb_neq. intros E. assert (c = d) by congruence. subst d. congruence. }
  assert (D2 : chars_eqb (c :: map upper q) (txt "PI") = false) by (apply chars_eqb_neq; intros E; assert (c = ch 80) by (vm_compute in E |- *; congruence); subst c; discriminate H1).
  assert (D3 : chars_eqb (c :: map upper q) (txt "E") = false) by (apply chars_eqb_neq; intros E; assert (c = ch 69) by (vm_compute in E |- *; congruence); subst c; discriminate H1).
  rewrite D2, D3. rewrite (D nanone H1 (ch 110) (txt "anone") eq_refl eq_refl), (D nanzero H1 (ch 110) (txt "anzero") eq_refl eq_refl). cbn [orb].
  assert (AM : among fn_names (c :: q) = false).
  { destruct (among fn_names (c :: q)) eqn:E; [|reflexivity]. apply among_In in E. exfalso.
    assert (G : function (c :: q)) by (right; right; exact E). destruct (in_function _ G) as (c' & r & E2 & L & _). assert (c' = c) by congruence. subst c'. congruence. }
  rewrite AM, S3. reflexivity.
Qed.
Lemma function_head f : function f -> chars_eqb f uminus = false /\ infix f (txt "+-*/^") = false /\ chars_eqb (map upper f) (txt "PI") = false /\ chars_eqb (map upper f) (txt "E") = false /\
  ((chars_eqb f nanone || chars_eqb f nanzero) = true \/ (chars_eqb f nanone || chars_eqb f nanzero) = false /\ among fn_names f = true).
Proof.
  intros H. repeat (destruct H as [<-|H]; [repeat (split; [vm_compute; reflexivity|]); vm_compute; auto|]). destruct H.
Qed.
Lemma variable_head x n s m : name_ok x -> ~ reserved x -> eval_stack (S n) (x :: s) m = match get x m with Some v => Ok (v, Some x, s, m) | None => Ok (v_zero A, None, s, m) end.
Proof.
  intros [NE LX] NR. destruct x as [|c x]; [congruence|]. inversion LX; subst. rewrite eval_S.
  assert (U : chars_eqb (c :: x) uminus = false).
  { apply chars_eqb_neq. intros E. rewrite E in LX. vm_compute in LX. repeat match goal with H : Forall _ (_ :: _) |- _ => inversion H; clear H; subst end; discriminate. }
  rewrite U, infix_head by (now apply letter_not_op).
  rewrite (chars_eqb_neq (map upper (c :: x)) (txt "PI")) by (intros E; apply NR; left; exact E).
  rewrite (chars_eqb_neq (map upper (c :: x)) (txt "E")) by (intros E; apply NR; right; left; exact E).
  rewrite (chars_eqb_neq (c :: x) nanone) by (intros E; apply NR; right; right; left; symmetry; exact E).
  rewrite (chars_eqb_neq (c :: x) nanzero) by (intros E; apply NR; right; right; right; left; symmetry; exact E). cbn [orb].
  destruct (among fn_names (c :: x)) eqn:AM; [exfalso; apply NR; right; right; right; right; now apply among_In|]. rewrite H1. reflexivity.
Qed.
Lemma operator_head o n s m : eval_stack (S n) ([symbol o] :: s) m =
  let! (b, _, s, m) := eval_stack n s m in let! (a, _, s, m) := eval_stack n s m in let! w := operation A o a b in Ok (w, None, s, m).
Proof. destruct o; reflexivity. Qed.
Lemma minus_head n s m : eval_stack (S n) (uminus :: s) m = let! (v, _, s, m) := eval_stack n s m in let! w := v_neg A v in Ok (w, None, s, m).
Proof. reflexivity. Qed.
Lemma rev_snoc {B} (l : list B) x s : rev (l ++ [x]) ++ s = x :: rev l ++ s.
Proof. rewrite rev_app_distr. reflexivity. Qed.
Theorem eval_tree e : forall n s m, wf name_ok e -> no_bare e -> (forall x, In x (variables e) -> ~ reserved x /\ get x m <> None) -> length (pf e) <= n ->
  match meaning A (fun x => get x m) e with
  | Some v => eval_stack n (rev (pf e) ++ s) m = Ok (v, own e, s, m)
  | None => exists x, eval_stack n (rev (pf e) ++ s) m = Err x
  end.
Proof.
  induction e as [m0 x| | |x|f a IH|a IH|a IH|o a IHa b IHb]; intros n s m W NB GV L.
  - destruct W as [M X]. destruct x as [[c x]|]; cbn [pf meaning own rev app]; cbn [pf length] in L; destruct n as [|n]; try lia.
    + rewrite number_step by exact M. destruct (v_num A (m0 ++ ch 69 :: x)); cbn [bind defined]; [reflexivity|eauto].
    + assert (NS : eval_stack (S n) (m0 :: s) m = (let! v := v_num A m0 in Ok (v, None, s, m))) by (pose proof (number_step n m0 [] s m M) as K; rewrite app_nil_r in K; exact K). rewrite NS. destruct (v_num A m0); cbn [bind defined]; [reflexivity|eauto].
  - destruct n as [|n]; [cbn in L; lia|]. reflexivity.
  - destruct n as [|n]; [cbn in L; lia|]. reflexivity.
  - destruct n as [|n]; [cbn in L; lia|]. cbn [pf rev app meaning own]. destruct (GV x (or_introl eq_refl)) as [NR NG].
    rewrite variable_head by assumption. destruct (get x m); [reflexivity|congruence].
  - destruct W as [F W]. destruct NB as [NB1 NB2]. cbn [pf] in L |- *. rewrite app_length in L. cbn [length] in L. destruct n as [|n]; [lia|]. rewrite rev_snoc, eval_S.
    destruct (function_head f F) as (-> & -> & -> & -> & FC).
    specialize (IH n s m W NB2 GV ltac:(lia)). cbn [meaning own].
    destruct FC as [FC|[FC AM]].
    + rewrite FC. assert (BA : own a = None).
      { apply own_bare, NB1. apply orb_true_iff in FC. destruct FC as [E|E]; apply chars_eqb_spec in E; auto. }
      destruct (meaning A _ a) as [v|]; cbn [apply1].
      * rewrite IH. cbn [bind]. rewrite BA. unfold apply_function. destruct (chars_eqb f nanone) eqn:E1.
        -- destruct (v_nan A true v); cbn [bind defined]; [reflexivity|eauto].
        -- cbn [orb] in FC. rewrite FC. destruct (v_nan A false v); cbn [bind defined]; [reflexivity|eauto].
      * destruct IH as (x & ->). cbn [bind]. eauto.
    + rewrite FC, AM. apply orb_false_iff in FC. destruct FC as [F1 F2]. destruct (meaning A _ a) as [v|]; cbn [apply1].
      * rewrite IH. cbn [bind]. unfold apply_function. rewrite F1, F2. destruct (v_fn A f v); cbn [bind defined]; [reflexivity|eauto].
      * destruct IH as (x & ->). cbn [bind]. eauto.
  - cbn [pf] in L |- *. rewrite app_length in L. cbn [length] in L. destruct n as [|n]; [lia|]. rewrite rev_snoc, minus_head.
    specialize (IH n s m W NB GV ltac:(lia)). cbn [meaning own]. destruct (meaning A _ a) as [v|]; cbn [apply1].
    + rewrite IH. cbn [bind]. destruct (v_neg A v); cbn [bind defined]; [reflexivity|eauto].
    + destruct IH as (x & ->). cbn [bind]. eauto.
  - exact (IH n s m W NB GV L).
  - destruct W as [WA WB]. destruct NB as [NA NB]. cbn [pf] in L |- *. rewrite !app_length in L. cbn [length] in L. destruct n as [|n]; [lia|].
    rewrite app_assoc, rev_snoc, rev_app_distr, <- app_assoc, operator_head. cbn [variables] in GV.
    specialize (IHb n (rev (pf a) ++ s) m WB NB (fun x I => GV x (in_or_app _ _ _ (or_intror I))) ltac:(lia)).
    specialize (IHa n s m WA NA (fun x I => GV x (in_or_app _ _ _ (or_introl I))) ltac:(lia)).
    cbn [meaning own]. destruct (meaning A _ b) as [vb|].
    + rewrite IHb. cbn [bind]. destruct (meaning A _ a) as [va|]; cbn [apply2].
      * rewrite IHa. cbn [bind]. destruct (operation A o va vb); cbn [bind defined]; [reflexivity|eauto].
      * destruct IHa as (x & ->). cbn [bind]. eauto.
    + destruct IHb as (x & ->). cbn [bind]. destruct (meaning A _ a); cbn [apply2]; eauto.
Qed.
Theorem eval_written e t m : wf name_ok e -> written (toks e) t -> no_bare e -> (forall x, In x (variables e) -> ~ reserved x /\ get x m <> None) ->
  yields (eval A t m) (meaning A (fun x => get x m) e).
Proof.
  intros W R NB GV. unfold eval. rewrite (parse_written e t W R). pose proof (eval_tree e (S (length (pf e))) [] m W NB GV ltac:(lia)) as H.
  rewrite app_nil_r in H. destruct (meaning A (fun x => get x m) e) as [v|]; cbn [yields].
  - rewrite H. reflexivity.
  - destruct H as (x & ->). cbn [bind]. eauto.
Qed.
(* the number of steps is enough *)
Lemma eval_length : forall n s m v o r m', eval_stack n s m = Ok (v, o, r, m') -> length r < length s.
Proof.
  induction n as [|n IH]; intros s m v o r m' H; [discriminate H|]. destruct s as [|op s]; [discriminate H|]. rewrite eval_S in H. cbn [length].
  repeat match type of H with
  | (if ?b then _ else _) = _ => destruct b
  | bind (eval_stack n ?s' ?mm) _ = _ => let E := fresh "E" in destruct (eval_stack n s' mm) as [[[[? ?] ?] ?]|] eqn:E; cbn [bind] in H; [apply IH in E|discriminate H]
  | bind ?x _ = _ => destruct x; cbn [bind] in H; [|discriminate H]
  | match op with _ => _ end = _ => destruct op; [discriminate H|]
  | match get ?a ?b with _ => _ end = _ => destruct (get a b)
  end; inversion H; subst; lia.
Qed.
Theorem eval_enough n n' s m : length s < n -> length s < n' -> eval_stack n s m = eval_stack n' s m.
Proof.
  revert n' s m. induction n as [|n IH]; intros n' s m L L'; [lia|]. destruct n' as [|n']; [lia|]. destruct s as [|op s]; [reflexivity|]. cbn [length] in L, L'.
  rewrite !eval_S, (IH n' s m) by lia.
  repeat match goal with
  | |- (if ?b then _ else _) = _ => destruct b; try reflexivity
  end.
  destruct (eval_stack n' s m) as [[[[? ?] ?] ?]|] eqn:E; cbn [bind]; [|reflexivity]. apply eval_length in E. rewrite (IH n') by lia. reflexivity.
Qed.
End Eval.
