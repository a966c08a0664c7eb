From Coq Require Import String.
From Verif Require IntegerBaseSpec IntegerBaseProofs.
From Verif Require Import TextProofs ExprModel ExprSpec ExprProofs ExprEvalProofs.
From Coq Require Import Lia.
Close Scope string_scope.
Local Open Scope nat_scope.
#[local] Arguments txt : simpl never.
#[local] Arguments ch : simpl never.
#[local] Arguments ascii_eqb : simpl never.
#[local] Arguments chars_eqb : simpl never.

(* ---- tokens ---- *)
Definition plain (t : chars) : Prop := Forall (fun c => ascii_eqb c lbrace = false) t.
Definition tok_ok (t : chars) : Prop := plain t \/ exists z, field_ok z /\ t = braced z.
Lemma plain_app a b : plain a -> plain b -> plain (a ++ b). Proof. intros. apply Forall_app. auto. Qed.
Lemma spaces_plain w : spaces w -> plain w.
Proof.
  apply Forall_impl. intros c. assert (H : forall c, implb' (is_space c) (negb (ascii_eqb c lbrace)) = true) by by_char. intros S. apply blank_space in S. apply negb_true_iff. exact (use_implb _ _ (H c) S).
Qed.
Lemma digits_plain w : digits_of w -> plain w.
Proof.
  apply Forall_impl. intros c. assert (H : forall c, implb' (digit c) (negb (ascii_eqb c lbrace)) = true) by by_char. intros S. apply negb_true_iff. exact (use_implb _ _ (H c) S).
Qed.
Lemma letters_plain w : Forall (fun c => letter c = true) w -> plain w.
Proof.
  apply Forall_impl. intros c. assert (H : forall c, implb' (letter c) (negb (ascii_eqb c lbrace)) = true) by by_char. intros S. apply negb_true_iff. exact (use_implb _ _ (H c) S).
Qed.
Lemma mantissa_plain m : mantissa_ok m -> plain m.
Proof.
  intros (a & b & _ & DA & DB & [-> | ->]); [now apply digits_plain|]. apply plain_app; [now apply digits_plain|]. constructor; [reflexivity|now apply digits_plain].
Qed.
Lemma exponent_plain c x : exponent_ok (Some (c, x)) -> plain (c :: x).
Proof.
  intros [C (s & d & S & _ & D & ->)]. constructor; [destruct C as [-> | ->]; reflexivity|]. apply plain_app; [|now apply digits_plain].
  destruct S as [->|[->| ->]]; repeat constructor.
Qed.
Lemma function_plain f : function f -> plain f.
Proof. intros H. repeat (destruct H as [<-|H]; [repeat constructor|]). destruct H. Qed.
Lemma field_plain z : field_ok z -> plain z.
Proof. apply Forall_impl. intros c [N _]. now apply ascii_eqb_neq. Qed.
Lemma rbrace_plain z : plain z -> plain (z ++ [rbrace]).
Proof. intros H. apply plain_app; [exact H|repeat constructor]. Qed.

(* ---- the tokens of a tree ---- *)
Section Body.
Variable spell : chars -> chars.
Lemma bracket_Forall (P : chars -> Prop) b l : (forall t, plain t -> P t) -> Forall P l -> Forall P (bracket b l).
Proof.
  intros H F. destruct b; [|exact F]. constructor; [apply H; repeat constructor|]. apply Forall_app. split; [exact F|]. repeat constructor. apply H. repeat constructor.
Qed.
Lemma symbol_plain o : plain [symbol o]. Proof. destruct o; repeat constructor. Qed.
Lemma body_Forall (P : chars -> Prop) okvar e : (forall t, plain t -> P t) -> wf okvar e -> (forall z, In z (variables e) -> P (spell z)) -> Forall P (body spell e).
Proof.
  intros H. induction e as [m x| | |x|f a IH|a IH|a IH|o a IHa b IHb]; intros W HV.
  - destruct W as [M X]. destruct x as [[c x]|]; cbn [body]; (constructor; [|constructor]); apply H; [|now apply mantissa_plain]. apply plain_app; [now apply mantissa_plain|now apply exponent_plain].
  - constructor; [apply H; repeat constructor|constructor].
  - constructor; [apply H; repeat constructor|constructor].
  - constructor; [apply HV; left; reflexivity|constructor].
  - destruct W as [F W]. cbn [body]. constructor; [now apply H, function_plain|]. apply bracket_Forall; [exact H|]. now apply IH.
  - cbn [body]. constructor; [apply H; repeat constructor|]. apply bracket_Forall; [exact H|]. now apply IH.
  - cbn [body]. constructor; [apply H; repeat constructor|]. apply bracket_Forall; [exact H|]. now apply IH.
  - destruct W as [WA WB]. cbn [variables] in HV.
    assert (FA := IHa WA (fun z I => HV z (in_or_app _ _ _ (or_introl I)))). assert (FB := IHb WB (fun z I => HV z (in_or_app _ _ _ (or_intror I)))).
    assert (S : Forall P [[symbol o]]) by (constructor; [apply H, symbol_plain|constructor]).
    destruct o; cbn [body]; (apply Forall_app; split; [now apply bracket_Forall|apply Forall_app; split; [exact S|now apply bracket_Forall]]).
Qed.
Lemma bracket_map F b l : (forall t, plain t -> F t = t) -> map F (bracket b l) = bracket b (map F l).
Proof. intros H. destruct b; [|reflexivity]. cbn [bracket map]. rewrite map_app. cbn [map]. rewrite !H by (repeat constructor). reflexivity. Qed.
Lemma body_map F okvar e : (forall t, plain t -> F t = t) -> wf okvar e -> body (fun z => F (spell z)) e = map F (body spell e).
Proof.
  intros H. induction e as [m x| | |x|f a IH|a IH|a IH|o a IHa b IHb]; intros W.
  - destruct W as [M X]. destruct x as [[c x]|]; cbn [body map]; rewrite H; try reflexivity; [|now apply mantissa_plain]. apply plain_app; [now apply mantissa_plain|now apply exponent_plain].
  - cbn [body map]. rewrite H by (repeat constructor). reflexivity.
  - cbn [body map]. rewrite H by (repeat constructor). reflexivity.
  - reflexivity.
  - destruct W as [F' W]. cbn [body map]. rewrite H by (now apply function_plain). rewrite bracket_map by exact H. f_equal. f_equal. now apply IH.
  - cbn [body map]. rewrite H by (repeat constructor). rewrite bracket_map by exact H. f_equal. f_equal. now apply IH.
  - cbn [body map]. rewrite H by (repeat constructor). rewrite bracket_map by exact H. f_equal. f_equal. now apply IH.
  - destruct W as [WA WB]. destruct o; cbn [body]; rewrite !map_app, !bracket_map by exact H; rewrite IHa, IHb by assumption; cbn [map]; rewrite (H [symbol _]) by apply symbol_plain; reflexivity.
Qed.
End Body.
Lemma body_ext spell spell' e : (forall z, In z (variables e) -> spell z = spell' z) -> body spell e = body spell' e.
Proof.
  induction e as [m x| | |x|f a IH|a IH|a IH|o a IHa b IHb]; intros H; cbn [body]; try reflexivity.
  - f_equal. apply H. left. reflexivity.
  - f_equal. f_equal. now apply IH.
  - f_equal. f_equal. now apply IH.
  - f_equal. f_equal. now apply IH.
  - cbn [variables] in H. rewrite IHa by (intros z I; apply H, in_or_app; auto). rewrite IHb by (intros z I; apply H, in_or_app; auto). reflexivity.
Qed.

(* ---- replacing ---- *)
Lemma starts_app p t : starts p (p ++ t) = Some t.
Proof. induction p as [|c p IH]; cbn [starts app]; [reflexivity|]. now rewrite ascii_eqb_refl. Qed.
Lemma starts_some p t r : starts p t = Some r -> t = p ++ r.
Proof.
  revert t. induction p as [|c p IH]; intros t H; cbn [starts] in H; [inversion H; reflexivity|]. destruct t as [|d t]; [discriminate H|].
  destruct (ascii_eqb c d) eqn:E; [|discriminate H]. apply ascii_eqb_spec in E. subst d. cbn [app]. f_equal. now apply IH.
Qed.
Lemma until_rbrace x z r t : field_ok x -> field_ok z -> x ++ rbrace :: r = z ++ rbrace :: t -> x = z.
Proof.
  intros FX. revert z. induction FX as [|c x (N1 & N2 & N3) _ IH]; intros z FZ E.
  - destruct FZ as [|d z (M1 & M2 & M3) _]; [reflexivity|]. cbn [app] in E. inversion E. congruence.
  - destruct FZ as [|d z (M1 & M2 & M3) FZ]; cbn [app] in E; inversion E; [congruence|]. subst d. f_equal. now apply IH.
Qed.
Lemma replace_plain x new p t : plain p -> replace_go (braced x) new 0 (p ++ t) = p ++ replace_go (braced x) new 0 t.
Proof.
  induction 1 as [|c p H _ IH]; [reflexivity|]. cbn [app replace_go]. unfold braced at 1. cbn [starts].
  assert (N : ascii_eqb lbrace c = false) by (apply ascii_eqb_neq; intros E; subst c; rewrite ascii_eqb_refl in H; discriminate H). rewrite N. now rewrite IH.
Qed.
Lemma replace_skip old new p t : replace_go old new (length p) (p ++ t) = replace_go old new 0 t.
Proof. induction p as [|c p IH]; [reflexivity|]. cbn [app replace_go length]. exact IH. Qed.
Lemma replace_same x new t : replace_go (braced x) new 0 (braced x ++ t) = new ++ replace_go (braced x) new 0 t.
Proof.
  assert (E : braced x ++ t = lbrace :: (x ++ [rbrace]) ++ t) by reflexivity. rewrite E. cbn [replace_go]. rewrite <- E, starts_app. f_equal.
  replace (length (braced x) - 1) with (length (x ++ [rbrace])) by (unfold braced; cbn [length]; lia). apply replace_skip.
Qed.
Lemma replace_other x z new t : field_ok x -> field_ok z -> x <> z -> replace_go (braced x) new 0 (braced z ++ t) = braced z ++ replace_go (braced x) new 0 t.
Proof.
  intros FX FZ NE. assert (E : braced z ++ t = lbrace :: (z ++ [rbrace]) ++ t) by reflexivity. rewrite E. cbn [replace_go]. rewrite <- E.
  destruct (starts (braced x) (braced z ++ t)) as [r|] eqn:S.
  - exfalso. apply starts_some in S. apply NE. unfold braced in S. cbn [app] in S. assert (S2 : x ++ rbrace :: r = z ++ rbrace :: t).
    { assert (S3 : (z ++ [rbrace]) ++ t = (x ++ [rbrace]) ++ r) by congruence. rewrite <- !app_assoc in S3. cbn [app] in S3. congruence. }
    exact (until_rbrace x z r t FX FZ S2).
  - rewrite replace_plain by (apply rbrace_plain, field_plain, FZ). unfold braced. reflexivity.
Qed.
Definition swap (x new tok : chars) : chars := if chars_eqb tok (braced x) then new else tok.
Lemma swap_plain x new tok : plain tok -> swap x new tok = tok.
Proof.
  intros P. unfold swap. rewrite chars_eqb_neq; [reflexivity|]. intros ->. inversion P; subst. rewrite ascii_eqb_refl in *. discriminate.
Qed.
Lemma braced_inj x z : braced x = braced z -> x = z.
Proof. unfold braced. intros E. assert (E2 : x ++ [rbrace] = z ++ [rbrace]) by congruence. now apply app_inj_tail in E2. Qed.
Lemma replace_written x new ts t : field_ok x -> Forall tok_ok ts -> written ts t -> written (map (swap x new) ts) (replace (braced x) new t).
Proof.
  intros FX F W. unfold replace. induction W as [w S|w tok ts t S W IH]; cbn [map].
  - rewrite <- (app_nil_r w), replace_plain by (now apply spaces_plain). cbn [replace_go]. rewrite app_nil_r. now constructor.
  - inversion F as [|? ? TO F']; subst. rewrite replace_plain by (now apply spaces_plain). destruct TO as [P|(z & FZ & ->)].
    + rewrite replace_plain by exact P. rewrite swap_plain by exact P. constructor; [exact S|now apply IH].
    + unfold swap at 1. destruct (chars_eqb (braced z) (braced x)) eqn:E.
      * apply chars_eqb_spec in E. apply braced_inj in E. subst z. rewrite replace_same. constructor; [exact S|now apply IH].
      * rewrite replace_other; [|exact FX|exact FZ|intros ->; rewrite chars_eqb_refl in E; discriminate E]. constructor; [exact S|now apply IH].
Qed.

(* ---- fields ---- *)
Lemma fields_plain p t : plain p -> fields None (p ++ t) = fields None t.
Proof. induction 1 as [|c p H _ IH]; [reflexivity|]. cbn [app fields]. now rewrite H. Qed.
Lemma fields_in z : field_ok z -> forall acc t, fields (Some acc) (z ++ rbrace :: t) = (acc ++ z) :: fields None t.
Proof.
  induction 1 as [|c z (N1 & N2 & N3) _ IH]; intros acc t; cbn [app fields].
  - rewrite ascii_eqb_refl, app_nil_r. reflexivity.
  - rewrite (ascii_eqb_neq c rbrace N2), (ascii_eqb_neq c newline N3), IH, <- app_assoc. reflexivity.
Qed.
Lemma fields_braced z t : field_ok z -> fields None (braced z ++ t) = z :: fields None t.
Proof.
  intros F. unfold braced. cbn [app fields]. rewrite ascii_eqb_refl, <- app_assoc. cbn [app]. now rewrite fields_in.
Qed.
Definition slot (tok : chars) : list chars := match tok with c :: r => if ascii_eqb c lbrace then [removelast r] else [] | [] => [] end.
Lemma slot_braced z : slot (braced z) = [z].
Proof. unfold braced, slot. rewrite ascii_eqb_refl, removelast_last. reflexivity. Qed.
Lemma slot_plain t : plain t -> slot t = [].
Proof. intros [|c r H _]; [reflexivity|]. cbn [slot]. now rewrite H. Qed.
Lemma fields_written ts t : Forall tok_ok ts -> written ts t -> fields None t = flat_map slot ts.
Proof.
  intros F W. induction W as [w S|w tok ts t S W IH]; cbn [flat_map].
  - rewrite <- (app_nil_r w), fields_plain by (now apply spaces_plain). reflexivity.
  - inversion F as [|? ? TO F']; subst. rewrite fields_plain by (now apply spaces_plain). destruct TO as [P|(z & FZ & ->)].
    + rewrite fields_plain, slot_plain by exact P. now apply IH.
    + rewrite fields_braced, slot_braced by exact FZ. cbn [app]. f_equal. now apply IH.
Qed.
Lemma slots_bracket b l : flat_map slot (bracket b l) = flat_map slot l.
Proof. destruct b; [|reflexivity]. cbn [bracket flat_map]. rewrite flat_map_app. cbn [flat_map]. change (slot (txt ")")) with (@nil chars). change (slot (txt "(")) with (@nil chars). cbn [app]. now rewrite app_nil_r. Qed.
Lemma slots_body okvar e : wf okvar e -> flat_map slot (body braced e) = variables e.
Proof.
  induction e as [m x| | |x|f a IH|a IH|a IH|o a IHa b IHb]; intros W; cbn [variables].
  - destruct W as [M X]. destruct x as [[c x]|]; cbn [body flat_map]; rewrite slot_plain; try reflexivity; [|now apply mantissa_plain]. apply plain_app; [now apply mantissa_plain|now apply exponent_plain].
  - reflexivity.
  - reflexivity.
  - cbn [body flat_map]. now rewrite slot_braced.
  - destruct W as [F W]. cbn [body flat_map]. rewrite slot_plain by (now apply function_plain). rewrite slots_bracket. now apply IH.
  - cbn [body flat_map]. rewrite slots_bracket. now apply IH.
  - cbn [body flat_map]. rewrite slots_bracket. now apply IH.
  - destruct W as [WA WB]. destruct o; cbn [body]; rewrite !flat_map_app, !slots_bracket, IHa, IHb by assumption; reflexivity.
Qed.
Theorem fields_ok : forall e t, wf field_ok e -> written (body braced e) t -> fields None t = variables e.
Proof.
  intros e t W R. rewrite (fields_written (body braced e)); [now apply (slots_body field_ok)| |exact R].
  assert (HV : forall z, In z (variables e) -> field_ok z).
  { clear R. revert W. induction e as [m x| | |x|f a IH|a IH|a IH|o a IHa b IHb]; cbn [variables wf]; intros W z I; try contradiction; auto.
    - destruct I as [<-|[]]. exact W.
    - apply IH; tauto.
    - apply in_app_or in I. destruct I as [I|I]; [apply IHa|apply IHb]; tauto. }
  apply (body_Forall braced tok_ok field_ok); [intros u P; left; exact P|exact W|]. intros z I. right. exists z. split; [now apply HV|reflexivity].
Qed.

(* ---- the new names ---- *)
Lemma letters_NoDup : NoDup letters.
Proof. assert (H : nodup ascii_dec letters = letters) by (vm_compute; reflexivity). rewrite <- H. apply NoDup_nodup. Qed.
Lemma newname_ok i : exists y, newname i = Ok y /\ name_ok y /\ IntegerBaseSpec.denotes letters y (Z.of_nat i).
Proof.
  unfold newname. destruct (IntegerBaseProofs.int2base_ok (ch 45) letters i (Z.of_nat i)) as (y & E & D & C).
  - vm_compute. discriminate.
  - lia.
  - lia.
  - exact letters_NoDup.
  - rewrite E. exists y. split; [reflexivity|]. split; [|exact D]. split; [intros ->; exact C|].
    destruct D as (ks & F & _). apply Forall_forall. intros c I. clear -F I. induction F as [|c' k y ks H F IH]; [destruct I|]. destruct I as [->|I]; [|now apply IH].
    apply nth_error_In in H. clear -H. repeat (destruct H as [<-|H]; [reflexivity|]). destruct H.
Qed.
Lemma denotes_fun y a b : IntegerBaseSpec.denotes letters y a -> IntegerBaseSpec.denotes letters y b -> a = b.
Proof.
  intros (ks & F & ->) (ks' & F' & ->). f_equal. revert ks' F'. induction F as [|c k y ks H F IH]; intros ks' F'; inversion F' as [|? k' ? ks2 H' F2]; subst; [reflexivity|].
  f_equal; [|now apply IH]. assert (L : k < length letters) by (apply nth_error_Some; congruence).
  apply (proj1 (NoDup_nth_error letters) letters_NoDup k k' L). congruence.
Qed.
Lemma newname_inj i j y : newname i = Ok y -> newname j = Ok y -> i = j.
Proof.
  intros E1 E2. destruct (newname_ok i) as (y1 & F1 & _ & D1). destruct (newname_ok j) as (y2 & F2 & _ & D2).
  assert (y1 = y) by congruence. assert (y2 = y) by congruence. subst y1 y2. apply Nat2Z.inj. exact (denotes_fun y _ _ D1 D2).
Qed.
Lemma newname_zero : newname 0 = Ok (txt "a"). Proof. reflexivity. Qed.

(* ---- renaming ---- *)
Fixpoint table (i : nat) (names : list chars) : list (chars * chars) :=
  match names with [] => [] | x :: names => (x, match newname i with Ok y => y | Err _ => [] end) :: table (S i) names end.
Fixpoint look (z : chars) (l : list (chars * chars)) : option chars :=
  match l with [] => None | (x, y) :: l => if chars_eqb z x then Some y else look z l end.
Definition spell_by (spell : chars -> chars) (l : list (chars * chars)) (z : chars) : chars := match look z l with Some y => var_ y | None => spell z end.
Lemma look_none z i names : ~ In z names -> look z (table i names) = None.
Proof.
  revert i. induction names as [|x names IH]; intros i N; [reflexivity|]. cbn [table look]. rewrite chars_eqb_neq by (intros ->; apply N; left; reflexivity). apply IH. intros I. apply N. right. exact I.
Qed.
Lemma var_plain y : name_ok y -> plain (var_ y).
Proof. intros [_ L]. apply plain_app; [repeat constructor|now apply letters_plain]. Qed.
Lemma rename_ok names : forall i spell e t, NoDup names -> Forall field_ok names -> wf field_ok e -> written (body spell e) t ->
  (forall z, In z (variables e) -> (In z names -> spell z = braced z) /\ (~ In z names -> plain (spell z))) ->
  exists t', rename i names t = Ok (t', table i names) /\ written (body (spell_by spell (table i names)) e) t'.
Proof.
  induction names as [|x names IH]; intros i spell e t ND FF W R SP.
  - exists t. split; [reflexivity|exact R].
  - inversion ND as [|? ? NI ND']; subst. inversion FF as [|? ? FX FF']; subst. cbn [rename]. destruct (newname_ok i) as (y & E & NY & _).
    assert (VF : forall z, In z (variables e) -> tok_ok (spell z)).
    { intros z I. destruct (SP z I) as [S1 S2]. destruct (in_dec (list_eq_dec ascii_dec) z (x :: names)) as [IN|NIN]; [|left; now apply S2].
      right. exists z. split; [|now apply S1]. rewrite Forall_forall in FF. now apply FF. }
    pose proof (replace_written x (var_ y) (body spell e) t FX (body_Forall spell tok_ok field_ok e (fun u P => or_introl P) W VF) R) as R2.
    rewrite <- (body_map spell (swap x (var_ y)) field_ok e (swap_plain x (var_ y)) W) in R2.
    destruct (IH (S i) (fun z => swap x (var_ y) (spell z)) e _ ND' FF' W R2) as (t' & E2 & R3).
    + intros z I. destruct (SP z I) as [S1 S2]. split.
      * intros IN. rewrite S1 by (right; exact IN). unfold swap. rewrite chars_eqb_neq; [reflexivity|]. intros B. apply braced_inj in B. subst z. contradiction.
      * intros NIN. destruct (list_eq_dec ascii_dec z x) as [->|NE].
        -- rewrite S1 by (left; reflexivity). unfold swap. rewrite chars_eqb_refl. now apply var_plain.
        -- assert (P : plain (spell z)) by (apply S2; intros [H|H]; congruence). rewrite swap_plain; exact P.
    + exists t'. split.
      * rewrite E. cbn [bind]. change (txt "var_" ++ y) with (var_ y). rewrite E2. cbn [bind table]. rewrite E. reflexivity.
      * erewrite body_ext; [exact R3|]. intros z I. cbn [table]. unfold spell_by. cbn [look]. rewrite E. destruct (chars_eqb z x) eqn:Z.
        -- apply chars_eqb_spec in Z. subst z. rewrite look_none by exact NI. rewrite (proj1 (SP x I)) by (left; reflexivity). unfold swap. now rewrite chars_eqb_refl.
        -- destruct (look z (table (S i) names)) eqn:LK; [reflexivity|]. destruct (SP z I) as [S1 S2].
           destruct (in_dec (list_eq_dec ascii_dec) z names) as [IN|NIN].
           ++ rewrite S1 by (right; exact IN). unfold swap. rewrite chars_eqb_neq; [reflexivity|]. intros B. apply braced_inj in B. subst z. rewrite chars_eqb_refl in Z. discriminate Z.
           ++ symmetry. apply swap_plain, S2. intros [H|H]; [subst z; rewrite chars_eqb_refl in Z; discriminate Z|contradiction].
Qed.

(* ---- the whole task ---- *)
Fixpoint map_vars (f : chars -> chars) (e : tree) : tree :=
  match e with
  | Var x => Var (f x)
  | Fun g a => Fun g (map_vars f a)
  | Neg a => Neg (map_vars f a)
  | Pos a => Pos (map_vars f a)
  | Bin o a b => Bin o (map_vars f a) (map_vars f b)
  | _ => e
  end.
Lemma map_vars_level f e : level (map_vars f e) = level e. Proof. destruct e; reflexivity. Qed.
Lemma map_vars_simple f e : simple (map_vars f e) = simple e. Proof. destruct e; reflexivity. Qed.
Lemma map_vars_body f spell e : body spell (map_vars f e) = body (fun z => spell (f z)) e.
Proof.
  induction e as [m x| | |x|g a IH|a IH|a IH|o a IHa b IHb]; cbn [map_vars body]; try reflexivity.
  - now rewrite IH.
  - now rewrite IH, map_vars_simple.
  - now rewrite IH, map_vars_simple.
  - now rewrite IHa, IHb, !map_vars_level.
Qed.
Lemma map_vars_variables f e : variables (map_vars f e) = map f (variables e).
Proof. induction e; cbn [map_vars variables map]; auto. rewrite map_app. congruence. Qed.
Lemma map_vars_bare f e : bare (map_vars f e) = bare e.
Proof. induction e; cbn [map_vars bare]; auto. now rewrite IHe. Qed.
Lemma map_vars_no_bare f e : no_bare e -> no_bare (map_vars f e).
Proof.
  induction e; cbn [map_vars no_bare]; auto.
  - intros [A B]. split; [rewrite map_vars_bare; exact A|auto].
  - intros [A B]. auto.
Qed.
Lemma map_vars_wf f (P Q : chars -> Prop) e : (forall z, In z (variables e) -> Q (f z)) -> wf P e -> wf Q (map_vars f e).
Proof.
  induction e; cbn [map_vars wf variables]; auto.
  - intros H _. apply H. left. reflexivity.
  - intros H [A B]. auto.
  - intros H [A B]. split; [apply IHe1|apply IHe2]; auto; intros z I; apply H, in_or_app; auto.
Qed.
Lemma wf_field e : wf field_ok e -> forall z, In z (variables e) -> field_ok z.
Proof.
  induction e as [m x| | |x|f a IH|a IH|a IH|o a IHa b IHb]; cbn [variables wf]; intros W z I; try contradiction; auto.
  - destruct I as [<-|[]]. exact W.
  - apply IH; tauto.
  - apply in_app_or in I. destruct I as [I|I]; [apply IHa|apply IHb]; tauto.
Qed.
Lemma remove1_In x l z : NoDup l -> (In z (remove1 x l) <-> In z l /\ z <> x).
Proof.
  induction 1 as [|y l NI ND IH]; cbn [remove1]; [cbn; tauto|]. destruct (chars_eqb x y) eqn:E.
  - apply chars_eqb_spec in E. subst y. split; [intros I; split; [right; exact I|congruence]|]. intros [[->|I] N]; [congruence|exact I].
  - cbn [In]. rewrite IH. split.
    + intros [->|[I N]]; [|tauto]. split; [left; reflexivity|]. intros ->. rewrite chars_eqb_refl in E. discriminate E.
    + intros [[->|I] N]; tauto.
Qed.
Lemma remove1_NoDup x l : NoDup l -> NoDup (remove1 x l).
Proof.
  induction 1 as [|y l NI ND IH]; cbn [remove1]; [constructor|]. destruct (chars_eqb x y); [exact ND|]. constructor; [|exact IH]. intros I. apply NI. now apply (remove1_In x l y ND).
Qed.
Lemma table_names i names : map fst (table i names) = names.
Proof. revert i. induction names as [|x names IH]; intros i; cbn [table map fst]; [reflexivity|]. now rewrite IH. Qed.
Lemma table_look i names z : In z names -> NoDup names -> exists j y, i <= j < i + length names /\ newname j = Ok y /\ look z (table i names) = Some y /\ In (z, y) (table i names).
Proof.
  revert i. induction names as [|x names IH]; intros i I ND; [destruct I|]. inversion ND; subst. cbn [table look length]. destruct (chars_eqb z x) eqn:E.
  - apply chars_eqb_spec in E. subst z. destruct (newname_ok i) as (y & N & _). exists i, y. rewrite N. split; [lia|]. split; [reflexivity|]. split; [reflexivity|]. left. reflexivity.
  - destruct I as [->|I]; [rewrite chars_eqb_refl in E; discriminate E|]. destruct (IH (S i) I) as (j & y & L & N & K & M); [assumption|]. exists j, y. split; [lia|]. split; [exact N|]. split; [exact K|]. right. exact M.
Qed.
Section Task.
Context {V : Type} (A : alg V).
Lemma meaning_ext val val' e : (forall z, In z (variables e) -> val z = val' z) -> meaning A val e = meaning A val' e.
Proof.
  induction e as [m x| | |x|f a IH|a IH|a IH|o a IHa b IHb]; intros H; cbn [meaning]; try reflexivity.
  - apply H. left. reflexivity.
  - now rewrite IH.
  - now rewrite IH.
  - now apply IH.
  - cbn [variables] in H. rewrite IHa, IHb; [reflexivity| |]; intros z I; apply H, in_or_app; auto.
Qed.
Lemma meaning_map f val e : meaning A val (map_vars f e) = meaning A (fun z => val (f z)) e.
Proof.
  induction e as [m x| | |x|g a IH|a IH|a IH|o a IHa b IHb]; cbn [map_vars meaning]; try reflexivity.
  - now rewrite IH.
  - now rewrite IH.
  - exact IH.
  - now rewrite IHa, IHb.
Qed.
Lemma meaning_strict val e z : In z (variables e) -> val z = None -> meaning A val e = None.
Proof.
  induction e as [m x| | |x|f a IH|a IH|a IH|o a IHa b IHb]; cbn [variables meaning]; intros I N; try contradiction.
  - destruct I as [->|[]]. exact N.
  - now rewrite IH.
  - now rewrite IH.
  - now apply IH.
  - apply in_app_or in I. destruct I as [I|I]; [rewrite IHa by assumption; reflexivity|]. rewrite IHb by assumption. destruct (meaning A val a); reflexivity.
Qed.
Lemma read_all_ok read signals parent l :
  (exists m, read_all read signals parent l = Ok m /\ Forall2 (fun p q => snd p = fst q /\ read (resolve signals parent (fst p)) = Ok (snd q)) l m) \/
  (exists e z y, read_all read signals parent l = Err e /\ In (z, y) l /\ exists e', read (resolve signals parent z) = @Err V e').
Proof.
  induction l as [|[x y] l [(m & E & F)|(e & z & y' & E & I & R)]]; cbn [read_all].
  - left. exists []. split; [reflexivity|constructor].
  - destruct (read (resolve signals parent x)) as [v|e] eqn:R; cbn [bind].
    + rewrite E. cbn [bind]. left. exists ((y, v) :: m). split; [reflexivity|]. constructor; [split; [reflexivity|exact R]|exact F].
    + right. exists e, x, y. split; [reflexivity|]. split; [left; reflexivity|eauto].
  - destruct (read (resolve signals parent x)) as [v|e'] eqn:R'; cbn [bind].
    + rewrite E. cbn [bind]. right. exists e, z, y'. split; [reflexivity|]. split; [right; exact I|exact R].
    + right. exists e', x, y. split; [reflexivity|]. split; [left; reflexivity|eauto].
Qed.
Lemma get_table read signals parent names : NoDup names -> forall i m,
  Forall2 (fun p q => snd p = fst q /\ read (resolve signals parent (fst p)) = Ok (snd q)) (table i names) m ->
  forall z y, look z (table i names) = Some y -> In z names -> exists v, get y m = Some v /\ read (resolve signals parent z) = @Ok V v.
Proof.
  induction 1 as [|x names NI ND IH]; intros i m F z y LK I; [destruct I|]. cbn [table] in F, LK. inversion F as [|? [y' v] ? m' [E R] F']; subst. cbn [fst snd] in E, R. subst y'.
  cbn [look] in LK. cbn [get]. destruct (chars_eqb z x) eqn:Z.
  - apply chars_eqb_spec in Z. subst z. assert (y = match newname i with Ok y0 => y0 | Err _ => [] end) by congruence. subst y. rewrite chars_eqb_refl. exists v. split; [reflexivity|exact R].
  - destruct I as [->|I]; [rewrite chars_eqb_refl in Z; discriminate Z|]. destruct (IH (S i) m' F' z y LK I) as (w & G & RW).
    destruct (table_look (S i) names z I ND) as (j & y2 & L & N & K & _). assert (y2 = y) by congruence. subst y2.
    rewrite chars_eqb_neq; [exists w; auto|]. intros ->. destruct (newname_ok i) as (y3 & N3 & _). rewrite N3 in N. assert (i = j) by (apply (newname_inj i j y3); [exact N3|exact N]). lia.
Qed.
Theorem process_general : forall e t order read signals parent (data : V), wf field_ok e -> written (body braced e) t -> no_bare e ->
  NoDup order -> (forall x, In x order <-> In x (fields None t)) -> In [] (variables e) -> (exists z, In z (variables e) /\ z <> []) ->
  (forall i y, 0 < i < length order -> newname i = Ok y -> ~ reserved y) ->
  match meaning A (fun z => match z with [] => Some data | _ => defined (read (resolve signals parent z)) end) e with
  | Some v => process A order t read signals Calculate parent data = Ok (Some v)
  | None => exists x, process A order t read signals Calculate parent data = Err x
  end.
Proof.
  intros e t order read signals parent data W R NB ND SAME IN0 (z1 & I1 & NE1) NRES.
  assert (SAMEV : forall x, In x order <-> In x (variables e)) by (intros x; rewrite SAME, (fields_ok e t W R); reflexivity).
  set (names := remove1 [] order).
  assert (NDN : NoDup names) by (now apply remove1_NoDup).
  assert (INN : forall z, In z names <-> In z (variables e) /\ z <> []) by (intros z; unfold names; rewrite remove1_In by exact ND; rewrite SAMEV; reflexivity).
  assert (LN : S (length names) = length order).
  { unfold names. clear -IN0 SAMEV. apply SAMEV in IN0. clear SAMEV. induction order as [|x o IH]; [destruct IN0|]. cbn [remove1]. destruct (chars_eqb [] x) eqn:E; [reflexivity|].
    destruct IN0 as [->|I]; [rewrite chars_eqb_refl in E; discriminate E|]. cbn [length]. now rewrite IH. }
  assert (FN : Forall field_ok names) by (apply Forall_forall; intros z I; apply (wf_field e W); now apply INN).
  set (spell0 := fun z => swap [] (var_ (txt "a")) (braced z)).
  assert (R0 : written (body spell0 e) (replace (braced []) (txt "var_a") t)).
  { unfold spell0. rewrite (body_map braced _ field_ok e (swap_plain [] (var_ (txt "a"))) W). apply (replace_written [] (var_ (txt "a"))); [constructor| |exact R].
    apply (body_Forall braced tok_ok field_ok); [intros u P; left; exact P|exact W|]. intros z I. right. exists z. split; [now apply (wf_field e W)|reflexivity]. }
  assert (S0 : spell0 [] = var_ (txt "a")) by (unfold spell0, swap; now rewrite chars_eqb_refl).
  assert (S1 : forall z, z <> [] -> spell0 z = braced z).
  { intros z N. unfold spell0, swap. rewrite chars_eqb_neq; [reflexivity|]. intros B. apply braced_inj in B. contradiction. }
  destruct (rename_ok names 1 spell0 e _ NDN FN W R0) as (t' & ER & RT).
  { intros z I. split.
    - intros IZ. apply S1. now apply INN.
    - intros NZ. destruct z as [|c z]; [rewrite S0; apply var_plain; split; [discriminate|repeat constructor]|]. exfalso. apply NZ, INN. split; [exact I|discriminate]. }
  assert (PE : parse_expression order t = Ok (t', table 1 names)).
  { unfold parse_expression. rewrite (proj2 (among_In order [])) by (apply SAMEV; exact IN0). exact ER. }
  unfold process. rewrite PE. cbn [bind].
  destruct (table 1 names) as [|p0 tb] eqn:TB.
  { exfalso. assert (I : In z1 names) by (apply INN; auto). rewrite <- (table_names 1 names), TB in I. destruct I. }
  rewrite <- TB in *. clear p0 tb TB.
  set (nm := fun z => match look z (table 1 names) with Some y => y | None => txt "a" end).
  assert (NM0 : nm [] = txt "a") by (unfold nm; rewrite look_none; [reflexivity|]; intros I; apply INN in I; destruct I as [_ I]; congruence).
  assert (NMOK : forall z, In z (variables e) -> name_ok (nm z) /\ ~ reserved (nm z)).
  { intros z I. destruct z as [|c z].
    - rewrite NM0. split; [split; [discriminate|repeat constructor]|]. intros [H|[H|H]]; vm_compute in H; [discriminate H|discriminate H|]. clear -H. repeat (destruct H as [H|H]; [discriminate H|]). destruct H.
    - assert (IZ : In (c :: z) names) by (apply INN; split; [exact I|discriminate]). destruct (table_look 1 names _ IZ NDN) as (j & y & L & N & K & _).
      unfold nm. rewrite K. split; [|apply (NRES j); [lia|exact N]]. destruct (newname_ok j) as (y' & N' & O & _). assert (y' = y) by congruence. subst y'. exact O. }
  set (e' := map_vars nm e).
  assert (RT' : written (toks e') t').
  { unfold e'. rewrite map_vars_body. erewrite body_ext; [exact RT|]. intros z I. unfold spell_by, nm. destruct (look z (table 1 names)) eqn:K; [reflexivity|].
    destruct z as [|c z]; [now rewrite S0|]. exfalso. assert (IZ : In (c :: z) names) by (apply INN; split; [exact I|discriminate]).
    destruct (table_look 1 names _ IZ NDN) as (j & y & L & N & K' & _). congruence. }
  assert (W' : wf name_ok e') by (apply (map_vars_wf nm field_ok); [intros z I; now apply NMOK|exact W]).
  set (val := fun z => match z with [] => Some data | _ => defined (read (resolve signals parent z)) end).
  destruct (read_all_ok read signals parent (table 1 names)) as [(m & EM & FM)|(x & z & y & EM & IZ & (x' & RZ))].
  - assert (GV : forall z, In z (variables e) -> get (nm z) ((txt "a", data) :: m) = val z /\ get (nm z) ((txt "a", data) :: m) <> None).
    { intros z I. destruct z as [|c z]; [rewrite NM0; split; [reflexivity|discriminate]|]. assert (IZ : In (c :: z) names) by (apply INN; split; [exact I|discriminate]).
      destruct (table_look 1 names _ IZ NDN) as (j & y & L & N & K & _). destruct (get_table read signals parent names NDN 1 m FM _ _ K IZ) as (v & G & RV).
      unfold nm. rewrite K. cbn [get]. rewrite chars_eqb_neq.
      - rewrite G. unfold val. rewrite RV. split; [reflexivity|discriminate].
      - intros ->. assert (j = 0) by (apply (newname_inj j 0 (txt "a")); [exact N|exact newname_zero]). lia. }
    rewrite EM. cbn [bind].
    pose proof (eval_written A e' t' ((txt "a", data) :: m) W' RT' (map_vars_no_bare nm e NB)) as Y.
    assert (Y2 : forall x, In x (variables e') -> ~ reserved x /\ get x ((txt "a", data) :: m) <> None).
    { intros x I. unfold e' in I. rewrite map_vars_variables in I. apply in_map_iff in I. destruct I as (z & <- & I). split; [now apply NMOK|now apply GV]. }
    specialize (Y Y2). unfold e' in Y. rewrite meaning_map, (meaning_ext _ val) in Y by (intros z I; now apply GV).
    change (meaning A (fun z : chars => match z with [] => Some data | _ => defined (read (resolve signals parent z)) end) e) with (meaning A val e). clearbody val. destruct (meaning A val e) as [v|]; unfold yields in Y; [rewrite Y; reflexivity|]. destruct Y as (x & ->). cbn [bind]. eauto.
  - rewrite EM. cbn [bind]. assert (IZ' : In z names) by (rewrite <- (table_names 1 names); apply in_map_iff; exists (z, y); auto). apply INN in IZ'. destruct IZ' as [IV NZ].
    change (meaning A (fun z : chars => match z with [] => Some data | _ => defined (read (resolve signals parent z)) end) e) with (meaning A val e).
    rewrite (meaning_strict val e z IV); [eauto|]. unfold val. destruct z; [congruence|]. rewrite RZ. reflexivity.
Qed.
Lemma few_names i y : 0 < i < 4 -> newname i = Ok y -> ~ reserved y.
Proof.
  intros L E. assert (y = txt "b" \/ y = txt "c" \/ y = txt "d").
  { destruct i as [|[|[|[|i]]]]; try lia; vm_compute in E |- *; [left|right; left|right; right]; congruence. }
  clear E. intros R. destruct H as [->|[->| ->]]; (destruct R as [R|[R|R]]; [discriminate R|discriminate R|]); vm_compute in R; repeat (destruct R as [R|R]; [discriminate R|]); destruct R.
Qed.
Theorem process_few : forall e t order read signals parent (data : V), wf field_ok e -> written (body braced e) t -> no_bare e ->
  NoDup order -> (forall x, In x order <-> In x (fields None t)) -> In [] (variables e) -> (exists z, In z (variables e) /\ z <> []) -> length order <= 4 ->
  match meaning A (fun z => match z with [] => Some data | _ => defined (read (resolve signals parent z)) end) e with
  | Some v => process A order t read signals Calculate parent data = Ok (Some v)
  | None => exists x, process A order t read signals Calculate parent data = Err x
  end.
Proof.
  intros e t order read signals parent data W R NB ND SAME IN0 EX L4. apply process_general; auto. intros i y L E. apply (few_names i); [lia|exact E].
Qed.
End Task.

(* ---- the other branches ---- *)
Theorem process_no_data : forall V (A : alg V) order t read signals how parent data, ~ In [] order ->
  process A order t read signals how parent data = Err ValueError.
Proof.
  intros V A order t read signals how parent data N. unfold process, parse_expression. destruct (among order []) eqn:E; [|reflexivity].
  exfalso. apply N. now apply among_In.
Qed.
Lemma rename_total names : forall i t, exists r, rename i names t = Ok r.
Proof.
  induction names as [|x names IH]; intros i t; cbn [rename]; [eauto|]. destruct (newname_ok i) as (y & -> & _). cbn [bind].
  destruct (IH (S i) (replace (braced x) (txt "var_" ++ y) t)) as ((t' & l) & ->). cbn [bind]. eauto.
Qed.
Theorem process_other : forall V (A : alg V) order t read signals parent data, In [] order ->
  process A order t read signals Skip parent data = Ok None /\ process A order t read signals Copy parent data = Ok (Some data).
Proof.
  intros V A order t read signals parent data I. unfold process, parse_expression. rewrite (proj2 (among_In order [])) by exact I.
  destruct (rename_total (remove1 [] order) 1 (replace (braced []) (txt "var_a") t)) as ((t' & l) & E). rewrite E. cbn [bind]. split; reflexivity.
Qed.
Theorem process_only_data : forall V (A : alg V) t read signals parent data,
  process A [[]] t read signals Calculate parent data = Ok (Some data).
Proof. intros. reflexivity. Qed.

Lemma filter_one (P : chars * chars -> bool) l p : filter P l = [p] -> In p l /\ P p = true.
Proof. intros E. assert (I : In p (filter P l)) by (rewrite E; left; reflexivity). apply filter_In in I. exact I. Qed.
Theorem resolve_unique : forall before after g x parent, (forall s, In s (before ++ after) -> snd s <> x) ->
  resolve (before ++ (g, x) :: after) parent x = (g, x).
Proof.
  intros before after g x parent H. unfold resolve. rewrite filter_app. cbn [filter snd]. rewrite chars_eqb_refl.
  assert (N : forall l : list (chars * chars), (forall s, In s l -> snd s <> x) -> filter (fun p : chars * chars => chars_eqb (snd p) x) l = []).
  { clear. induction l as [|s l IH]; intros H; [reflexivity|]. cbn [filter]. rewrite chars_eqb_neq by (apply H; left; reflexivity). apply IH. intros s' I. apply H. right. exact I. }
  rewrite (N before), (N after); [reflexivity| |]; intros s I; apply H, in_or_app; auto.
Qed.
Theorem resolve_none : forall signals x parent, (forall s, In s signals -> snd s <> x) -> resolve signals parent x = (parent, x).
Proof.
  intros signals x parent H. unfold resolve. destruct (filter (fun p : chars * chars => chars_eqb (snd p) x) signals) as [|p [|? ?]] eqn:E; try reflexivity.
  apply filter_one in E. destruct E as [I E]. apply chars_eqb_spec in E. exfalso. exact (H p I E).
Qed.
Theorem resolve_several : forall before middle after g h x parent,
  resolve (before ++ (g, x) :: middle ++ (h, x) :: after) parent x = (parent, x).
Proof.
  intros. unfold resolve. rewrite filter_app. cbn [filter snd]. rewrite chars_eqb_refl, filter_app. cbn [filter snd]. rewrite chars_eqb_refl.
  destruct (filter (fun p : chars * chars => chars_eqb (snd p) x) before) as [|? [|? ?]]; cbn [app]; [|reflexivity|reflexivity].
  destruct (filter (fun p : chars * chars => chars_eqb (snd p) x) middle) as [|? ?]; reflexivity.
Qed.

(* ---- where the code differs from what an expression means ---- *)
Theorem fourth_name : exists e t order (read : signal -> result (option Z)) data v,
  wf field_ok e /\ written (body braced e) t /\ no_bare e /\ NoDup order /\ (forall x, In x order <-> In x (fields None t)) /\ length order = 5 /\
  meaning whole (fun z => match z with [] => Some data | _ => defined (read (resolve [] [] z)) end) e = Some v /\
  exists w, process whole order t read [] Calculate [] data = Ok (Some w) /\ v <> w.
Proof.
  exists (Bin Add (Bin Add (Bin Add (Bin Add (Var []) (Var (txt "p"))) (Var (txt "q"))) (Var (txt "r"))) (Var (txt "s"))), (txt "{}+{p}+{q}+{r}+{s}"),
    [[]; txt "p"; txt "q"; txt "r"; txt "s"], (fun _ => Ok (Some 10%Z)), (Some 10%Z), (Some 50%Z).
  assert (FO : forall c, In c (txt "pqrs") -> field_ok [c]).
  { intros c I. constructor; [|constructor]. repeat (destruct I as [<-|I]; [repeat split; discriminate|]). destruct I. }
  split. { cbn [wf]. split; [split; [split; [split; [apply Forall_nil|exact (FO "p"%char (or_introl eq_refl))]|exact (FO "q"%char (or_intror (or_introl eq_refl)))]|exact (FO "r"%char (or_intror (or_intror (or_introl eq_refl))))]|exact (FO "s"%char (or_intror (or_intror (or_intror (or_introl eq_refl)))))]. }
  split.
  { assert (E : forall toks, written toks (List.concat toks)) by (induction toks as [|u toks IH]; [constructor; constructor|apply (written_cons [] u toks _); [constructor|exact IH]]).
    match goal with |- written ?l ?t => change (written l (List.concat l)) end. apply E. }
  split. { cbn. tauto. }
  split. { repeat constructor; cbn; intuition discriminate. }
  split. { change (fields None (txt "{}+{p}+{q}+{r}+{s}")) with [[]; txt "p"; txt "q"; txt "r"; txt "s"]. reflexivity. }
  split. { reflexivity. }
  split. { vm_compute. reflexivity. }
  exists (Some 42%Z). split; [vm_compute; reflexivity|discriminate].
Qed.
Theorem only_data : exists e t (data : option Z) v, wf field_ok e /\ written (body braced e) t /\ no_bare e /\ fields None t = [[]] /\
  meaning whole (fun z => match z with [] => Some data | _ => None end) e = Some v /\
  exists w, process whole [[]] t (fun _ => Err KeyError) [] Calculate [] data = Ok (Some w) /\ v <> w.
Proof.
  exists (Bin Mul (Num (txt "2") None) (Var [])), (txt "2*{}"), (Some 5%Z), (Some 10%Z).
  split. { cbn. split; [|constructor]. split; [|exact I]. exists (txt "2"), []. split; [discriminate|]. split; [repeat constructor|]. split; [constructor|]. left. reflexivity. }
  split. { apply (written_cons [] (txt "2")); [constructor|]. apply (written_cons [] (txt "*")); [constructor|]. apply (written_cons [] (txt "{}") [] []); [constructor|]. constructor. constructor. }
  split. { cbn. tauto. }
  split; [reflexivity|]. split; [reflexivity|]. exists (Some 5%Z). split; [reflexivity|discriminate].
Qed.
Theorem unknown_function : forall V (A : alg V), eval A (txt "foo(3)") [] = Ok (v_zero A).
Proof. intros. reflexivity. Qed.
Theorem unknown_variable : forall V (A : alg V), eval A (txt "var_q") [] = Ok (v_zero A).
Proof. intros. reflexivity. Qed.
Theorem malformed : (exists s, parse (txt "2---") = Some s) /\ eval whole (txt "2---") [] = Err IndexError.
Proof. split; [exists (match parse (txt "2---") with Some s => s | None => [] end); reflexivity|vm_compute; reflexivity]. Qed.
Theorem in_place : exists data, exists v w,
  eval whole (txt "nanone(var_a)+var_a") [(txt "a", data)] = Ok v /\ eval whole (txt "var_a+nanone(var_a)") [(txt "a", data)] = Ok w /\ v <> w.
Proof. exists None, None, (Some 2%Z). split; [vm_compute; reflexivity|]. split; [vm_compute; reflexivity|discriminate]. Qed.
Theorem sign_power : eval whole (txt "-2^2") [] = Ok (Some 4%Z) /\ eval whole (txt "0-2^2") [] = Ok (Some (-4)%Z).
Proof. split; vm_compute; reflexivity. Qed.
