From Coq Require Import String.
From Verif Require Import TextProofs ExprModel ExprSpec.
From Coq Require Import Lia.
Close Scope string_scope.
Local Open Scope nat_scope.
#[local] Arguments oneof : simpl never.
#[local] Arguments is_space : simpl never.
#[local] Arguments letter : simpl never.
#[local] Arguments digit : simpl never.
#[local] Arguments signed : simpl never.
#[local] Arguments identchar : simpl never.
#[local] Arguments upper : simpl never.
#[local] Arguments txt : simpl never.
#[local] Arguments Nat.mul : simpl never.
#[local] Arguments ch : simpl never.
#[local] Arguments ascii_eqb : simpl never.

(* ---- equations ---- *)
Lemma expr_S n t st : expr (S n) t st = match term n t st with (Some r, st) => eloop n r st | (None, st) => (None, st) end.
Proof. reflexivity. Qed.
Lemma term_S n t st : term (S n) t st = match factor n t st with (Some r, st) => tloop n r st | (None, st) => (None, st) end.
Proof. reflexivity. Qed.
Lemma factor_S n t st : factor (S n) t st = match atom n t st with (Some r, st) => floop n r st | (None, st) => (None, st) end.
Proof. reflexivity. Qed.
Lemma eloop_S n t st : eloop (S n) t st = match skip t with
           | c :: t' => if oneof (txt "+-") c
                        then match term n t' st with (Some r, st) => eloop n r (st ++ [[c]]) | (None, st) => (Some t, st) end
                        else (Some t, st)
           | [] => (Some t, st) end.
Proof. reflexivity. Qed.
Lemma tloop_S n t st : tloop (S n) t st = match skip t with
           | c :: t' => if oneof (txt "*/") c
                        then match factor n t' st with (Some r, st) => tloop n r (st ++ [[c]]) | (None, st) => (Some t, st) end
                        else (Some t, st)
           | [] => (Some t, st) end.
Proof. reflexivity. Qed.
Lemma floop_S n t st : floop (S n) t st = match skip t with
           | c :: t' => if oneof (txt "^") c
                        then match factor n t' st with (Some r, st) => floop n r (st ++ [[c]]) | (None, st) => (Some t, st) end
                        else (Some t, st)
           | [] => (Some t, st) end.
Proof. reflexivity. Qed.
Lemma atom_S n t st : atom (S n) t st =
      let '(sg, t1) := sign (skip t) in
      match basic n t1 st with
      | (Some r, st) => (Some r, push_minus sg st)
      | (None, st) =>
          match starts (txt "(") t1 with
          | Some r1 =>
              match expr n r1 st with
              | (Some r2, st) => match starts (txt ")") (skip r2) with
                                 | Some r3 => (Some r3, push_minus sg st)
                                 | None => (None, st)
                                 end
              | (None, st) => (None, st)
              end
          | None => (None, st)
          end
      end.
Proof. reflexivity. Qed.
Lemma basic_S n t st : basic (S n) t st =
      match istarts (txt "PI") t with
      | Some r => (Some r, st ++ [txt "PI"])
      | None =>
      match istarts (txt "E") t with
      | Some r => (Some r, st ++ [txt "E"])
      | None =>
      match fnumber t with
      | Some (a, r) => (Some r, st ++ [a])
      | None =>
      match word letter identchar t with
      | Some (f, r) =>
          match starts (txt "(") (skip r) with
          | Some r1 =>
              match expr n r1 st with
              | (Some r2, st) => match starts (txt ")") (skip r2) with
                                 | Some r3 => (Some r3, st ++ [f])
                                 | None => variable t st
                                 end
              | (None, st) => variable t st
              end
          | None => variable t st
          end
      | None => variable t st
      end end end end.
Proof. reflexivity. Qed.

(* ---- characters ---- *)
Lemma all_ascii (P : ascii -> bool) : (forall b0 b1 b2 b3 b4 b5 b6 b7, P (Ascii b0 b1 b2 b3 b4 b5 b6 b7) = true) -> forall c, P c = true.
Proof. intros H [b0 b1 b2 b3 b4 b5 b6 b7]. apply H. Qed.
Ltac by_char := apply all_ascii; intros [] [] [] [] [] [] [] []; vm_compute; reflexivity.
Definition implb' (a b : bool) : bool := if a then b else true.
Lemma use_implb a b : implb' a b = true -> a = true -> b = true.
Proof. destruct a; cbn; congruence. Qed.
Lemma letter_facts c : letter c = true -> is_space c = false /\ signed c = false /\ digit c = false /\ oneof (txt "-+") c = false /\ identchar c = true /\ oneof (txt "(") c = false.
Proof.
  intros L. assert (H : forall c, implb' (letter c) (negb (is_space c) && negb (signed c) && negb (digit c) && negb (oneof (txt "-+") c) && identchar c && negb (oneof (txt "(") c)) = true) by by_char.
  specialize (H c). apply (fun K => use_implb _ _ K L) in H. rewrite !andb_true_iff, !negb_true_iff in H. tauto.
Qed.
Lemma digit_facts c : digit c = true -> is_space c = false /\ signed c = true /\ letter c = false /\ oneof (txt "-+") c = false /\ upper c = c /\ oneof (txt "+-*/^") c = false.
Proof.
  intros L. assert (H : forall c, implb' (digit c) (negb (is_space c) && signed c && negb (letter c) && negb (oneof (txt "-+") c) && ascii_eqb (upper c) c && negb (oneof (txt "+-*/^") c)) = true) by by_char.
  specialize (H c). apply (fun K => use_implb _ _ K L) in H. rewrite !andb_true_iff, !negb_true_iff, ascii_eqb_spec in H. tauto.
Qed.
Lemma digit_not_letter_start c x : digit c = true -> (x = ch 80 \/ x = ch 69) -> ascii_eqb x (upper c) = false.
Proof.
  intros L. assert (H : forall c, implb' (digit c) (negb (ascii_eqb (ch 80) (upper c)) && negb (ascii_eqb (ch 69) (upper c))) = true) by by_char.
  specialize (H c). apply (fun K => use_implb _ _ K L) in H. rewrite !andb_true_iff, !negb_true_iff in H. intros [->| ->]; tauto.
Qed.
(* what may follow an operand *)
Definition follows (l : chars) (c : ascii) : Prop := oneof l c = true.
Lemma follow_facts c : oneof (txt ")+-*/^") c = true -> is_space c = false /\ letter c = false /\ digit c = false /\ identchar c = false /\ upper c = c /\
  ascii_eqb c (ch 46) = false /\ ascii_eqb (ch 69) c = false /\ ascii_eqb (ch 40) c = false.
Proof.
  intros L. assert (H : forall c, implb' (oneof (txt ")+-*/^") c) (negb (is_space c) && negb (letter c) && negb (digit c) && negb (identchar c) && ascii_eqb (upper c) c
     && negb (ascii_eqb c (ch 46)) && negb (ascii_eqb (ch 69) c) && negb (ascii_eqb (ch 40) c)) = true) by by_char.
  specialize (H c). apply (fun K => use_implb _ _ K L) in H. rewrite !andb_true_iff, !negb_true_iff, ascii_eqb_spec in H. tauto.
Qed.
Lemma space_facts c : is_space c = true -> letter c = false /\ digit c = false /\ identchar c = false /\ ascii_eqb (ch 46) c = false /\ ascii_eqb (ch 69) (upper c) = false.
Proof.
  intros L. assert (H : forall c, implb' (is_space c) (negb (letter c) && negb (digit c) && negb (identchar c) && negb (ascii_eqb (ch 46) c) && negb (ascii_eqb (ch 69) (upper c))) = true) by by_char.
  specialize (H c). apply (fun K => use_implb _ _ K L) in H. rewrite !andb_true_iff, !negb_true_iff in H. tauto.
Qed.

(* ---- white space ---- *)
Lemma blank_space c : blank c <-> is_space c = true.
Proof.
  split; [intros [-> |[-> |[-> | ->]]]; reflexivity|]. assert (H : forall c, implb' (is_space c) (ascii_eqb c (ch 32) || ascii_eqb c (ch 10) || ascii_eqb c (ch 9) || ascii_eqb c (ch 13)) = true) by by_char.
  intros S. pose proof (use_implb _ _ (H c) S) as K. rewrite !orb_true_iff in K. unfold blank. destruct K as [[[K|K]|K]|K]; apply ascii_eqb_spec in K; auto.
Qed.
Lemma skip_spaces w t : spaces w -> skip (w ++ t) = skip t.
Proof. induction 1 as [|c w H _ IH]; cbn [skip app]; [reflexivity|]. apply blank_space in H. rewrite H. exact IH. Qed.
Lemma skip_only w : spaces w -> skip w = [].
Proof. intros H. rewrite <- (app_nil_r w), skip_spaces by exact H. reflexivity. Qed.
Lemma skip_char c t : is_space c = false -> skip (c :: t) = c :: t.
Proof. intros H. cbn [skip]. now rewrite H. Qed.
Lemma skip_tok w c tok t : spaces w -> is_space c = false -> skip (w ++ (c :: tok) ++ t) = c :: tok ++ t.
Proof. intros W S. rewrite skip_spaces by exact W. cbn [app]. now apply skip_char. Qed.

(* ---- what follows ---- *)
Definition fol (l : chars) (more : list chars) : Prop := match more with [] => True | tok :: _ => exists c, tok = [c] /\ oneof l c = true end.
(* the text after an operand starts with none of these characters *)
Definition clear_of (f : ascii -> bool) (t : chars) : Prop := match t with [] => True | c :: _ => f c = false end.
Lemma oneof_incl l l' c : (forall x, In x l -> In x l') -> oneof l c = true -> oneof l' c = true.
Proof.
  intros H. unfold oneof. rewrite !existsb_exists. intros (x & I & E). exists x. split; [now apply H|exact E].
Qed.
Lemma fol_incl l l' more : (forall x, In x l -> In x l') -> fol l more -> fol l' more.
Proof. intros H. destruct more as [|tok more]; [auto|]. cbn. intros (c & E & O). exists c. split; [exact E|]. eapply oneof_incl; eassumption. Qed.
Lemma fol_skip l more t : fol l more -> written more t -> (forall c, oneof l c = true -> is_space c = false) ->
  (more = [] /\ skip t = []) \/ exists c more' t', more = [c] :: more' /\ oneof l c = true /\ skip t = c :: t' /\ written more' t' /\ length t' < length t.
Proof.
  intros F W NS. destruct W as [w S|w tok toks t S W]; [left; split; [reflexivity|now apply skip_only]|].
  destruct F as (c & -> & O). right. exists c, toks, t. rewrite skip_tok by (auto; now apply NS). cbn [app]. rewrite app_length. cbn [length]. split; [reflexivity|]. split; [exact O|]. split; [reflexivity|]. split; [exact W|]. lia.
Qed.
Lemma fol_clear f more t : fol (txt ")+-*/^") more -> written more t -> (forall c, is_space c = true -> f c = false) -> (forall c, oneof (txt ")+-*/^") c = true -> f c = false) -> clear_of f t.
Proof.
  intros F W H1 H2. destruct W as [w S|w tok toks t S W]; unfold clear_of.
  - destruct S; [exact I|]. apply H1; now apply blank_space.
  - destruct F as (c & -> & O). destruct S; cbn [app]; [now apply H2|apply H1; now apply blank_space].
Qed.
Lemma span_all f a t : Forall (fun c => f c = true) a -> clear_of f t -> span f (a ++ t) = (a, t).
Proof.
  intros F C. induction F as [|c a H _ IH]; cbn [app span].
  - destruct t as [|c t]; [reflexivity|]. cbn [span]. cbn in C. now rewrite C.
  - now rewrite H, IH.
Qed.
Lemma word_all init b c a t : init c = true -> Forall (fun c => b c = true) a -> clear_of b t -> word init b (c :: a ++ t) = Some (c :: a, t).
Proof. intros I F C. cbn [word]. rewrite I, span_all by assumption. reflexivity. Qed.

(* ---- postfix ---- *)
Fixpoint pf (e : tree) : list chars :=
  match e with
  | Num m None => [m]
  | Num m (Some (_, x)) => [m ++ ch 69 :: x]
  | Pi => [txt "PI"]
  | Eu => [txt "E"]
  | Var x => [x]
  | Fun f a => pf a ++ [f]
  | Neg a => pf a ++ [uminus]
  | Pos a => pf a
  | Bin o a b => pf a ++ pf b ++ [[symbol o]]
  end.
Definition var_ (x : chars) : chars := txt "var_" ++ x.
Notation toks := (body var_).

(* ---- numbers ---- *)
Lemma fnumber_ok m x t : mantissa_ok m -> exponent_ok x ->
  clear_of digit t -> clear_of (ascii_eqb (ch 46)) t -> clear_of (fun c => ascii_eqb (ch 69) (upper c)) t ->
  fnumber (match x with None => m | Some (c, e) => m ++ c :: e end ++ t) = Some (match x with None => m | Some (c, e) => m ++ ch 69 :: e end, t).
Proof.
  intros (a & b & NA & DA & DB & M) X CD CP CE.
  (* the exponent *)
  set (u := match x with None => t | Some (c, e) => c :: e ++ t end).
  assert (UD : clear_of digit u).
  { subst u. destruct x as [[c e]|]; [|exact CD]. destruct X as [[-> | ->] _]; reflexivity. }
  assert (EXP : forall p, match istarts (txt "E") u with
      | Some r1 => match word signed digit r1 with Some (w, r2) => Some (p ++ txt "E" ++ w, r2) | None => Some (p, u) end
      | None => Some (p, u) end = Some (match x with None => p | Some (c, e) => p ++ ch 69 :: e end, t)).
  { intros p. subst u. destruct x as [[c e]|].
    - destruct X as [C (s & d & S & ND & DD & ->)]. assert (I : istarts (txt "E") (c :: (s ++ d) ++ t) = Some ((s ++ d) ++ t)) by (destruct C as [-> | ->]; reflexivity).
      rewrite I. assert (W : word signed digit ((s ++ d) ++ t) = Some (s ++ d, t)).
      { destruct d as [|d0 d]; [congruence|]. inversion DD; subst. destruct S as [->|[->| ->]]; cbn [app].
        - apply word_all; [now apply digit_facts|assumption|exact CD].
        - change (ch 43 :: d0 :: d ++ t) with (ch 43 :: (d0 :: d) ++ t). apply word_all; [reflexivity|exact DD|exact CD].
        - change (ch 45 :: d0 :: d ++ t) with (ch 45 :: (d0 :: d) ++ t). apply word_all; [reflexivity|exact DD|exact CD]. }
      rewrite W. reflexivity.
    - destruct t as [|c t]; [reflexivity|]. cbn in CE. change (txt "E") with [ch 69]. cbn [istarts]. rewrite CE. reflexivity. }
  assert (TX : match x with None => m | Some (c, e) => m ++ c :: e end ++ t = m ++ u).
  { subst u. destruct x as [[c e]|]; [rewrite <- app_assoc; reflexivity|reflexivity]. }
  rewrite TX. unfold fnumber. destruct a as [|a0 a]; [congruence|]. inversion DA; subst. destruct M as [-> | ->].
  - cbn [app]. rewrite word_all; [|now apply digit_facts|assumption|exact UD].
    assert (NP : starts (txt ".") u = None).
    { subst u. destruct x as [[c e]|].
      - destruct X as [[-> | ->] _]; reflexivity.
      - destruct t as [|c t]; [reflexivity|]. cbn in CP. change (txt ".") with [ch 46]. cbn [starts]. rewrite CP. reflexivity. }
    rewrite NP. apply EXP.
  - rewrite <- app_assoc. cbn [app]. rewrite word_all; [|now apply digit_facts|assumption|reflexivity].
    change (starts (txt ".") (ch 46 :: b ++ u)) with (Some (b ++ u)). cbv beta iota. rewrite span_all by assumption. rewrite EXP.
    change (txt "." ++ b) with (ch 46 :: b). destruct x as [[c e]|]; reflexivity.
Qed.

Lemma istarts_first p q c t : ascii_eqb p (upper c) = false -> istarts (p :: q) (c :: t) = None.
Proof. intros H. cbn [istarts]. now rewrite H. Qed.
Lemma istarts_PI c t : ascii_eqb (ch 80) (upper c) = false -> istarts (txt "PI") (c :: t) = None.
Proof. apply istarts_first. Qed.
Lemma istarts_E c t : ascii_eqb (ch 69) (upper c) = false -> istarts (txt "E") (c :: t) = None.
Proof. apply istarts_first. Qed.
Definition fol_atom := txt ")+-*/^".
Definition fol_factor := txt ")+-*/".
Definition fol_term := txt ")+-".
Definition fol_expr := txt ")".
Lemma fol_chars l : l = fol_factor \/ l = fol_term \/ l = fol_expr -> forall x, In x l -> In x fol_atom.
Proof. intros [->|[->| ->]] x I; vm_compute in I |- *; tauto. Qed.
Lemma fol_space l : l = fol_atom \/ l = fol_factor \/ l = fol_term \/ l = fol_expr -> forall c, oneof l c = true -> is_space c = false.
Proof.
  intros L c O. apply follow_facts. destruct L as [->|L]; [exact O|]. eapply oneof_incl; [apply (fol_chars l L)|exact O].
Qed.

(* ---- one operand ---- *)
Definition parses (f : nat -> chars -> list chars -> option chars * list chars) (k : nat) (l : chars) (e : tree) (ts : list chars) : Prop :=
  forall more t st n, written (ts ++ more) t -> fol l more -> 8 * length t + k <= n ->
  exists t', written more t' /\ length t' < length t /\ f n t st = (Some t', st ++ pf e).
Definition starts_loop (f g : nat -> chars -> list chars -> option chars * list chars) (k : nat) (l : chars) (e : tree) (ts : list chars) : Prop :=
  forall more t st n, written (ts ++ more) t -> fol l more -> 8 * length t + k <= n ->
  exists t' n', written more t' /\ length t' < length t /\ 8 * length t' + 1 <= n' /\ f n t st = g n' t' (st ++ pf e).
(* the basic operand, directly at its first character *)
Definition basically (e : tree) (ts : list chars) : Prop :=
  forall more w t st n, written (ts ++ more) (w ++ t) -> spaces w -> clear_of is_space t -> fol fol_atom more -> 8 * length t <= n ->
  exists t', written more t' /\ length t' < length t /\ clear_of (oneof (txt "-+")) t /\ basic n t st = (Some t', st ++ pf e).

Lemma written_inv tok ts t : written (tok :: ts) t -> exists w r, t = w ++ tok ++ r /\ spaces w /\ written ts r.
Proof. intros W. inversion W; subst. eauto. Qed.
Lemma split_first w c tok r w' t' : w ++ (c :: tok) ++ r = w' ++ t' -> spaces w -> spaces w' -> is_space c = false -> clear_of is_space t' -> w = w' /\ t' = (c :: tok) ++ r.
Proof.
  revert w'. induction w as [|x w IH]; intros [|y w'] E S S' NC C.
  - split; [reflexivity|]. symmetry. exact E.
  - exfalso. cbn [app] in E. inversion E; subst. inversion S' as [|? ? B ?]; subst. apply blank_space in B. congruence.
  - exfalso. cbn [app] in E. subst t'. inversion S as [|? ? B ?]; subst. apply blank_space in B. cbn in C. congruence.
  - cbn [app] in E. inversion E; subst. inversion S; subst. inversion S'; subst. destruct (IH w') as [-> ->]; auto.
Qed.
Lemma in_function f : function f -> exists c r, f = c :: r /\ letter c = true /\ Forall (fun c => identchar c = true) r /\ ascii_eqb (ch 69) (upper c) = false /\ ascii_eqb (ch 80) (upper c) = false.
Proof.
  intros H. repeat (destruct H as [<-|H]; [eexists _, _; split; [reflexivity|]; split; [reflexivity|]; split; [repeat constructor|]; split; reflexivity|]). destruct H.
Qed.

Lemma first_token tok ts w t c q : written (tok :: ts) (w ++ t) -> spaces w -> clear_of is_space t -> tok = c :: q -> is_space c = false ->
  exists r, t = tok ++ r /\ written ts r.
Proof.
  intros W S C E NS. destruct (written_inv _ _ _ W) as (w' & r & E2 & S' & W'). subst tok.
  destruct (split_first w' c q r w t) as [-> ->]; auto. exists r. split; [reflexivity|exact W'].
Qed.
Lemma len_pi : length (txt "pi") = 2. Proof. reflexivity. Qed.
Lemma len_e : length (txt "e") = 1. Proof. reflexivity. Qed.
Lemma len_open : length (txt "(") = 1. Proof. reflexivity. Qed.
Lemma len_close : length (txt ")") = 1. Proof. reflexivity. Qed.
Lemma len_var : length (txt "var_") = 4. Proof. reflexivity. Qed.
Ltac toklen := rewrite ?len_var, ?len_pi, ?len_e, ?len_open, ?len_close.
Lemma pos_fuel n (t : chars) : 8 * length t <= n -> t <> [] -> exists n', n = S n' /\ 8 * length t <= S n'.
Proof. destruct t as [|c t]; [congruence|]. cbn [length]. destruct n as [|n']; [lia|]. intros H _. exists n'. split; [reflexivity|exact H]. Qed.
Lemma basic_num m x : mantissa_ok m -> exponent_ok x -> basically (Num m x) (toks (Num m x)).
Proof.
  intros M X more w t st n W S C F L.
  assert (T : toks (Num m x) = [match x with None => m | Some (c, e) => m ++ c :: e end]) by (destruct x as [[c e]|]; reflexivity).
  assert (P : pf (Num m x) = [match x with None => m | Some (c, e) => m ++ ch 69 :: e end]) by (destruct x as [[c e]|]; reflexivity).
  rewrite T in W. rewrite P. set (tok := match x with None => m | Some (c, e) => m ++ c :: e end) in *. cbn [app] in W.
  assert (H : exists c q, tok = c :: q /\ digit c = true).
  { destruct M as (a & b & NA & DA & _ & M). destruct a as [|a0 a]; [congruence|]. inversion DA; subst.
    destruct M as [-> | ->]; destruct x as [[c e]|]; subst tok; cbn [app]; eauto. }
  destruct H as (c & q & TC & D). destruct (digit_facts c D) as (DS & _ & _ & DN & _).
  destruct (first_token tok more w t c q W S C TC DS) as (r & -> & W').
  assert (NE : tok ++ r <> []) by (rewrite TC; discriminate). destruct (pos_fuel n _ L NE) as (n' & -> & L').
  exists r. split; [exact W'|]. split; [rewrite app_length, TC; cbn [length]; lia|]. split; [rewrite TC; exact DN|].
  rewrite basic_S.
  assert (I1 : istarts (txt "PI") (tok ++ r) = None) by (rewrite TC; apply istarts_first; apply (digit_not_letter_start c); auto).
  assert (I2 : istarts (txt "E") (tok ++ r) = None) by (rewrite TC; apply istarts_first; apply (digit_not_letter_start c); auto).
  rewrite I1, I2. subst tok. rewrite fnumber_ok; [reflexivity|exact M|exact X| | |].
  - apply (fol_clear digit more r F W'); intros c' H; [now apply space_facts|now apply follow_facts].
  - apply (fol_clear _ more r F W'); intros c' H; [now apply space_facts|]. destruct (ascii_eqb (ch 46) c') eqn:E; [|reflexivity]. apply ascii_eqb_spec in E. subst c'. discriminate H.
  - apply (fol_clear _ more r F W'); intros c' H; [now apply space_facts|]. destruct (follow_facts c' H) as (_ & _ & _ & _ & U & _ & E & _). rewrite U. exact E.
Qed.
Lemma basic_pi : basically Pi (toks Pi).
Proof.
  intros more w t st n W S C F L. destruct (first_token _ more w t (ch 112) (txt "i") W S C eq_refl eq_refl) as (r & -> & W').
  destruct (pos_fuel n _ L ltac:(discriminate)) as (n' & -> & L'). exists r. split; [exact W'|]. split; [rewrite app_length; toklen; lia|]. split; reflexivity.
Qed.
Lemma basic_e : basically Eu (toks Eu).
Proof.
  intros more w t st n W S C F L. destruct (first_token _ more w t (ch 101) [] W S C eq_refl eq_refl) as (r & -> & W').
  destruct (pos_fuel n _ L ltac:(discriminate)) as (n' & -> & L'). exists r. split; [exact W'|]. split; [rewrite app_length; toklen; lia|]. split; reflexivity.
Qed.
Lemma fol_no_open more t : fol fol_atom more -> written more t -> starts (txt "(") (skip t) = None.
Proof.
  intros F W. destruct (fol_skip fol_atom more t F W) as [[_ ->]|(c & m' & t' & _ & O & -> & _)]; [apply fol_space; auto|reflexivity|].
  change (txt "(") with [ch 40]. cbn [starts]. destruct (follow_facts c O) as (_ & _ & _ & _ & _ & _ & _ & E). now rewrite E.
Qed.
Lemma letter_head c t : letter c = true -> fnumber (c :: t) = None.
Proof. intros H. unfold fnumber. cbn [word]. destruct (letter_facts c H) as (_ & -> & _). reflexivity. Qed.
Lemma basic_var x : name_ok x -> basically (Var x) (toks (Var x)).
Proof.
  intros [NX LX] more w t st n W S C F L. destruct (first_token _ more w t (ch 118) (txt "ar_" ++ x) W S C eq_refl eq_refl) as (r & -> & W').
  destruct (pos_fuel n _ L ltac:(discriminate)) as (n' & -> & L'). exists r. split; [exact W'|]. split; [rewrite app_length; unfold var_; rewrite app_length; toklen; lia|]. split; [reflexivity|].
  rewrite basic_S. change (var_ x ++ r) with (ch 118 :: (txt "ar_" ++ x) ++ r).
  rewrite istarts_PI by reflexivity. rewrite istarts_E by reflexivity. rewrite letter_head by reflexivity.
  rewrite word_all; [|reflexivity| |].
  - rewrite (fol_no_open more r F W'). unfold variable. change (ch 118 :: (txt "ar_" ++ x) ++ r) with (txt "var_" ++ x ++ r).
    assert (ST : forall u, starts (txt "var_") (txt "var_" ++ u) = Some u) by reflexivity. rewrite ST.
    destruct x as [|c x]; [congruence|]. inversion LX; subst. cbn [app]. rewrite skip_char by (now apply letter_facts).
    rewrite word_all; [reflexivity|assumption|assumption|]. apply (fol_clear letter more r F W'); intros c' H; [now apply space_facts|now apply follow_facts].
  - apply Forall_app. split; [repeat constructor|]. eapply Forall_impl; [|exact LX]. intros c H. now apply letter_facts.
  - apply (fol_clear identchar more r F W'); intros c' H; [now apply space_facts|now apply follow_facts].
Qed.
Definition completes (e : tree) : Prop := parses expr 8 fol_expr e (toks e).
Lemma close_paren more t : written (txt ")" :: more) t -> exists r, skip t = ch 41 :: r /\ written more r /\ length r < length t.
Proof.
  intros W. destruct (written_inv _ _ _ W) as (w & r & -> & S & W'). exists r. rewrite skip_spaces by exact S. split; [reflexivity|]. split; [exact W'|]. rewrite !app_length. toklen. lia.
Qed.
Lemma basic_fun f a : function f -> completes a -> basically (Fun f a) (toks (Fun f a)).
Proof.
  intros FN CA more w t st n W S C F L. destruct (in_function f FN) as (c & q & E & LC & LQ & N1 & N2).
  cbn [body bracket] in W. cbn [app] in W. destruct (letter_facts c LC) as (SC & _ & _ & MC & _ & _).
  destruct (first_token f _ w t c q W S C E SC) as (r & -> & W1).
  destruct (written_inv _ _ _ W1) as (w2 & r1 & -> & S2 & W2).
  destruct (pos_fuel n _ L ltac:(rewrite E; discriminate)) as (n' & -> & L').
  rewrite !app_length in L'. rewrite E in L'. cbn [length] in L'. change (length (txt "(")) with 1 in L'.
  rewrite <- app_assoc in W2. cbn [app] in W2.
  destruct (CA (txt ")" :: more) r1 st n' W2) as (r2 & W3 & LR & ER); [cbn; eexists; split; reflexivity|lia|].
  destruct (close_paren more r2 W3) as (r3 & SK & W4 & LR3).
  exists r3. split; [exact W4|]. split; [rewrite !app_length; lia|]. split; [rewrite E; exact MC|].
  rewrite basic_S, E. cbn [app]. rewrite istarts_PI by exact N2. rewrite istarts_E by exact N1. rewrite letter_head by exact LC.
  rewrite word_all; [|exact LC|exact LQ|].
  - rewrite skip_spaces by exact S2. change (skip (txt "(" ++ r1)) with (txt "(" ++ r1). change (starts (txt "(") (txt "(" ++ r1)) with (Some r1). cbv beta iota. rewrite ER, SK.
    change (starts (txt ")") (ch 41 :: r3)) with (Some r3). cbn [pf]. rewrite app_assoc. reflexivity.
  - destruct w2 as [|c2 w2]; [reflexivity|]. inversion S2; subst. cbn. apply space_facts; now apply blank_space.
Qed.

(* ---- operands with a sign or between brackets ---- *)
Lemma skip_clear (t : chars) : clear_of is_space t -> skip t = t.
Proof. destruct t as [|c t]; [reflexivity|]. intros H. now apply skip_char. Qed.
Lemma space_split t : exists w u, t = w ++ u /\ spaces w /\ clear_of is_space u /\ skip t = u /\ length u <= length t.
Proof.
  induction t as [|c t (w & u & E & S & C & K & L)]; [exists [], []; repeat split; constructor|]. cbn [skip]. destruct (is_space c) eqn:D.
  - exists (c :: w), u. subst t. split; [reflexivity|]. split; [constructor; [now apply blank_space|assumption]|]. split; [exact C|]. split; [exact K|]. cbn [length app]. lia.
  - exists [], (c :: t). split; [reflexivity|]. split; [constructor|]. split; [exact D|]. split; [reflexivity|]. lia.
Qed.
Lemma atom_basic e ts : basically e ts -> parses atom 2 fol_atom e ts.
Proof.
  intros B more t st n W F L. destruct (space_split t) as (w & u & E & S & C & K & LU). destruct n as [|n]; [lia|].
  rewrite E in W. destruct (B more w u st n W S C F ltac:(lia)) as (t' & W' & LT & CM & EB).
  exists t'. split; [exact W'|]. split; [lia|]. rewrite atom_S, K. assert (SG : sign u = (None, u)).
  { destruct u as [|c u]; [reflexivity|]. cbn [sign]. cbn in CM. now rewrite CM. }
  rewrite SG, EB. reflexivity.
Qed.
Definition with_sign (minus : bool) (e : tree) : tree := if minus then Neg e else Pos e.
Lemma with_sign_pf (m : bool) e : pf (with_sign m e) = pf e ++ (if m then [uminus] else []).
Proof. destruct m; cbn [with_sign pf]; [reflexivity|now rewrite app_nil_r]. Qed.
Lemma signs (m : bool) : exists c, (if m then txt "-" else txt "+") = [c] /\ oneof (txt "-+") c = true /\ is_space c = false /\ forall st, push_minus (Some c) st = st ++ (if m then [uminus] else []).
Proof.
  destruct m.
  - exists (ch 45). repeat split; reflexivity.
  - exists (ch 43). repeat split; try reflexivity. intros st. cbn. now rewrite app_nil_r.
Qed.
Lemma atom_sign (m : bool) e ts : basically e ts -> parses atom 2 fol_atom (with_sign m e) ((if m then txt "-" else txt "+") :: ts).
Proof.
  intros B more t st n W F L. destruct (signs m) as (c & E & O & NS & PM). rewrite E in W. destruct (written_inv _ _ _ W) as (w & r & -> & S & W').
  destruct (space_split r) as (w2 & u & E2 & S2 & C & K & LU). destruct n as [|n]; [lia|]. rewrite !app_length in L. cbn [length] in L.
  rewrite E2 in W'. destruct (B more w2 u st n W' S2 C F ltac:(lia)) as (t' & W'' & LT & CM & EB).
  exists t'. split; [exact W''|]. split; [rewrite !app_length; cbn [length]; lia|].
  rewrite atom_S, skip_tok by assumption. cbn [sign app]. rewrite O, K, EB, PM, with_sign_pf, app_assoc. reflexivity.
Qed.
Lemma basic_open t st n : clear_of is_space t -> (exists r, t = ch 40 :: r) -> basic n t st = (None, st).
Proof. intros _ (r & ->). destruct n as [|n]; reflexivity. Qed.
Lemma atom_paren e : completes e -> parses atom 2 fol_atom e (bracket true (toks e)).
Proof.
  intros CE more t st n W F L. cbn [bracket app] in W. destruct (written_inv _ _ _ W) as (w & r & -> & S & W'). rewrite <- app_assoc in W'. cbn [app] in W'.
  destruct n as [|n]; [lia|]. rewrite !app_length in L. change (length (txt "(")) with 1 in L.
  destruct (CE (txt ")" :: more) r st n W') as (r2 & W3 & LR & ER); [cbn; eexists; split; reflexivity|lia|].
  destruct (close_paren more r2 W3) as (r3 & SK & W4 & LR3).
  exists r3. split; [exact W4|]. split; [rewrite !app_length; lia|].
  rewrite atom_S, skip_spaces by exact S. change (skip (txt "(" ++ r)) with (ch 40 :: r). change (sign (ch 40 :: r)) with (@None ascii, ch 40 :: r). cbv beta iota zeta.
  rewrite basic_open; [|reflexivity|eauto]. change (starts (txt "(") (ch 40 :: r)) with (Some r). cbv beta iota. rewrite ER, SK. reflexivity.
Qed.
Lemma atom_sign_paren (m : bool) e : completes e -> parses atom 2 fol_atom (with_sign m e) ((if m then txt "-" else txt "+") :: bracket true (toks e)).
Proof.
  intros CE more t st n W F L. destruct (signs m) as (c & E & O & NS & PM). rewrite E in W. destruct (written_inv _ _ _ W) as (w & r & -> & S & W').
  change (written (txt "(" :: (toks e ++ [txt ")"]) ++ more) r) in W'. destruct (written_inv _ _ _ W') as (w2 & r1 & -> & S2 & W2). rewrite <- app_assoc in W2. cbn [app] in W2.
  destruct n as [|n]; [lia|]. rewrite !app_length in L. change (length (txt "(")) with 1 in L. cbn [length] in L.
  destruct (CE (txt ")" :: more) r1 st n W2) as (r2 & W3 & LR & ER); [cbn; eexists; split; reflexivity|lia|].
  destruct (close_paren more r2 W3) as (r3 & SK & W4 & LR3).
  exists r3. split; [exact W4|]. split; [rewrite !app_length; cbn [length]; lia|].
  rewrite atom_S, skip_tok by assumption. cbn [sign app]. rewrite O, skip_spaces by exact S2. change (skip (txt "(" ++ r1)) with (ch 40 :: r1).
  rewrite basic_open; [|reflexivity|eauto]. change (starts (txt "(") (ch 40 :: r1)) with (Some r1). cbv beta iota. rewrite ER, SK.
  change (starts (txt ")") (ch 41 :: r3)) with (Some r3). rewrite PM, with_sign_pf, app_assoc. reflexivity.
Qed.

(* ---- from one level to the next ---- *)
Lemma floop_stop more t st n : fol fol_factor more -> written more t -> 0 < n -> floop n t st = (Some t, st).
Proof.
  intros F W L. destruct n as [|n]; [lia|]. rewrite floop_S. destruct (fol_skip fol_factor more t F W) as [[_ ->]|(c & m' & t' & _ & O & -> & _)]; [apply fol_space; auto|reflexivity|].
  assert (Z : oneof (txt "^") c = false) by (apply negb_true_iff; refine (use_implb _ _ _ O); revert c O; intros c _; revert c; by_char). rewrite Z. reflexivity.
Qed.
Lemma tloop_stop more t st n : fol fol_term more -> written more t -> 0 < n -> tloop n t st = (Some t, st).
Proof.
  intros F W L. destruct n as [|n]; [lia|]. rewrite tloop_S. destruct (fol_skip fol_term more t F W) as [[_ ->]|(c & m' & t' & _ & O & -> & _)]; [apply fol_space; auto|reflexivity|].
  assert (Z : oneof (txt "*/") c = false) by (apply negb_true_iff; refine (use_implb _ _ _ O); revert c O; intros c _; revert c; by_char). rewrite Z. reflexivity.
Qed.
Lemma eloop_stop more t st n : fol fol_expr more -> written more t -> 0 < n -> eloop n t st = (Some t, st).
Proof.
  intros F W L. destruct n as [|n]; [lia|]. rewrite eloop_S. destruct (fol_skip fol_expr more t F W) as [[_ ->]|(c & m' & t' & _ & O & -> & _)]; [apply fol_space; auto|reflexivity|].
  assert (Z : oneof (txt "+-") c = false) by (apply negb_true_iff; refine (use_implb _ _ _ O); revert c O; intros c _; revert c; by_char). rewrite Z. reflexivity.
Qed.
Lemma incl_factor x : In x fol_factor -> In x fol_atom. Proof. apply fol_chars; auto. Qed.
Lemma incl_term x : In x fol_term -> In x fol_factor. Proof. vm_compute. tauto. Qed.
Lemma incl_expr x : In x fol_expr -> In x fol_term. Proof. vm_compute. tauto. Qed.
Lemma lift_factor e ts : parses atom 2 fol_atom e ts -> parses factor 4 fol_factor e ts.
Proof.
  intros H more t st n W F L. destruct n as [|n]; [lia|]. destruct (H more t st n W (fol_incl _ _ _ incl_factor F) ltac:(lia)) as (t' & W' & LT & E).
  exists t'. split; [exact W'|]. split; [exact LT|]. rewrite factor_S, E. eapply floop_stop; [exact F|exact W'|lia].
Qed.
Lemma lift_term e ts : parses factor 4 fol_factor e ts -> starts_loop term tloop 6 fol_factor e ts.
Proof.
  intros H more t st n W F L. destruct n as [|n]; [lia|]. destruct (H more t st n W F ltac:(lia)) as (t' & W' & LT & E).
  exists t', n. split; [exact W'|]. split; [exact LT|]. split; [lia|]. rewrite term_S, E. reflexivity.
Qed.
Lemma term_completes e ts : starts_loop term tloop 6 fol_factor e ts -> parses term 6 fol_term e ts.
Proof.
  intros H more t st n W F L. destruct (H more t st n W (fol_incl _ _ _ incl_term F) L) as (t' & n' & W' & LT & LN & E).
  exists t'. split; [exact W'|]. split; [exact LT|]. rewrite E. eapply tloop_stop; [exact F|exact W'|lia].
Qed.
Lemma lift_expr e ts : parses term 6 fol_term e ts -> starts_loop expr eloop 8 fol_term e ts.
Proof.
  intros H more t st n W F L. destruct n as [|n]; [lia|]. destruct (H more t st n W F ltac:(lia)) as (t' & W' & LT & E).
  exists t', n. split; [exact W'|]. split; [exact LT|]. split; [lia|]. rewrite expr_S, E. reflexivity.
Qed.
Lemma expr_completes e ts : starts_loop expr eloop 8 fol_term e ts -> parses expr 8 fol_expr e ts.
Proof.
  intros H more t st n W F L. destruct (H more t st n W (fol_incl _ _ _ incl_expr F) L) as (t' & n' & W' & LT & LN & E).
  exists t'. split; [exact W'|]. split; [exact LT|]. rewrite E. eapply eloop_stop; [exact F|exact W'|lia].
Qed.

(* ---- operators ---- *)
Lemma next_op l c more t : written ([c] :: more) t -> oneof l c = true -> is_space c = false -> exists t', skip t = c :: t' /\ written more t' /\ length t' < length t.
Proof.
  intros W O S. destruct (written_inv _ _ _ W) as (w & r & -> & SW & W'). exists r. rewrite skip_tok by assumption. split; [reflexivity|]. split; [exact W'|]. rewrite !app_length. cbn [length]. lia.
Qed.
Lemma op_power a b ta tb : parses atom 2 fol_atom a ta -> parses factor 4 fol_factor b tb -> parses factor 4 fol_factor (Bin Pow a b) (ta ++ [[symbol Pow]] ++ tb).
Proof.
  intros PA PB more t st n W F L. rewrite <- !app_assoc in W. cbn [app] in W. destruct n as [|n]; [lia|].
  destruct (PA _ t st n W ltac:(cbn; eexists; split; reflexivity) ltac:(lia)) as (t1 & W1 & L1 & E1).
  rewrite factor_S, E1. destruct (next_op (txt "^") _ _ _ W1 eq_refl eq_refl) as (t2 & SK & W2 & L2).
  destruct n as [|n]; [lia|]. rewrite floop_S, SK. change (oneof (txt "^") (symbol Pow)) with true. cbv iota.
  destruct (PB more t2 (st ++ pf a) n W2 F ltac:(lia)) as (t3 & W3 & L3 & E3). rewrite E3.
  exists t3. split; [exact W3|]. split; [lia|]. rewrite (floop_stop more) by (auto; lia). cbn [pf]. rewrite !app_assoc. reflexivity.
Qed.
Lemma op_product o a b ta tb : o = Mul \/ o = Div -> starts_loop term tloop 6 fol_factor a ta -> parses factor 4 fol_factor b tb ->
  starts_loop term tloop 6 fol_factor (Bin o a b) (ta ++ [[symbol o]] ++ tb).
Proof.
  intros O PA PB more t st n W F L. rewrite <- !app_assoc in W. cbn [app] in W.
  assert (OO : oneof (txt "*/") (symbol o) = true /\ is_space (symbol o) = false /\ oneof fol_factor (symbol o) = true) by (destruct O as [-> | ->]; repeat split; reflexivity).
  destruct OO as (O1 & O2 & O3).
  destruct (PA _ t st n W ltac:(cbn; eexists; split; [reflexivity|exact O3]) L) as (t1 & n1 & W1 & L1 & N1 & E1).
  destruct (next_op (txt "*/") _ _ _ W1 O1 O2) as (t2 & SK & W2 & L2).
  destruct n1 as [|n1]; [lia|]. destruct (PB more t2 (st ++ pf a) n1 W2 F ltac:(lia)) as (t3 & W3 & L3 & E3).
  exists t3, n1. split; [exact W3|]. split; [lia|]. split; [lia|]. rewrite E1, tloop_S, SK, O1, E3. cbn [pf]. rewrite !app_assoc. reflexivity.
Qed.
Lemma op_sum o a b ta tb : o = Add \/ o = Sub -> starts_loop expr eloop 8 fol_term a ta -> parses term 6 fol_term b tb ->
  starts_loop expr eloop 8 fol_term (Bin o a b) (ta ++ [[symbol o]] ++ tb).
Proof.
  intros O PA PB more t st n W F L. rewrite <- !app_assoc in W. cbn [app] in W.
  assert (OO : oneof (txt "+-") (symbol o) = true /\ is_space (symbol o) = false /\ oneof fol_term (symbol o) = true) by (destruct O as [-> | ->]; repeat split; reflexivity).
  destruct OO as (O1 & O2 & O3).
  destruct (PA _ t st n W ltac:(cbn; eexists; split; [reflexivity|exact O3]) L) as (t1 & n1 & W1 & L1 & N1 & E1).
  destruct (next_op (txt "+-") _ _ _ W1 O1 O2) as (t2 & SK & W2 & L2).
  destruct n1 as [|n1]; [lia|]. destruct (PB more t2 (st ++ pf a) n1 W2 F ltac:(lia)) as (t3 & W3 & L3 & E3).
  exists t3, n1. split; [exact W3|]. split; [lia|]. split; [lia|]. rewrite E1, eloop_S, SK, O1, E3. cbn [pf]. rewrite !app_assoc. reflexivity.
Qed.

(* ---- every tree ---- *)
Definition at_level (l : nat) (e : tree) (ts : list chars) : Prop :=
  match l with
  | 0 => starts_loop expr eloop 8 fol_term e ts
  | 1 => starts_loop term tloop 6 fol_factor e ts
  | 2 => parses factor 4 fol_factor e ts
  | _ => parses atom 2 fol_atom e ts
  end.
Lemma level_down l e ts : at_level (S l) e ts -> at_level l e ts.
Proof.
  destruct l as [|[|[|l]]]; cbn [at_level].
  - intros H. now apply lift_expr, term_completes.
  - apply lift_term.
  - apply lift_factor.
  - auto.
Qed.
Lemma level_le l l' e ts : l <= l' -> at_level l' e ts -> at_level l e ts.
Proof. induction 1 as [|l' _ IH]; [auto|]. intros H. apply IH. now apply level_down. Qed.
Lemma level_completes l e : at_level l e (toks e) -> completes e.
Proof. intros H. apply expr_completes. apply (level_le 0 l); [lia|exact H]. Qed.
Lemma bracket_level l e : l <= 3 -> at_level (level e) e (toks e) -> at_level l e (bracket (level e <? l) (toks e)).
Proof.
  intros L H. destruct (Nat.ltb_spec (level e) l) as [LT|GE].
  - apply (level_le l 3); [exact L|]. apply atom_paren. eapply level_completes. exact H.
  - cbn [bracket]. eapply level_le; eassumption.
Qed.
Theorem parse_tree e : wf name_ok e -> at_level (level e) e (toks e) /\ (simple e = true -> basically e (toks e)).
Proof.
  induction e as [m x| | |x|f a IH|a IH|a IH|o a IHa b IHb]; cbn [wf]; intros W.
  - assert (B := basic_num m x (proj1 W) (proj2 W)). split; [now apply atom_basic|auto].
  - split; [apply atom_basic, basic_pi|intros _; apply basic_pi].
  - split; [apply atom_basic, basic_e|intros _; apply basic_e].
  - assert (B := basic_var x W). split; [now apply atom_basic|auto].
  - destruct W as [F W]. destruct (IH W) as [IA _]. assert (B := basic_fun f a F (level_completes _ a IA)). split; [now apply atom_basic|auto].
  - destruct (IH W) as [IA IS]. split; [|discriminate]. cbn [level at_level body]. destruct (simple a) eqn:S; cbn [negb bracket].
    + apply (atom_sign true a). now apply IS.
    + apply (atom_sign_paren true a). eapply level_completes, IA.
  - destruct (IH W) as [IA IS]. split; [|discriminate]. cbn [level at_level body]. destruct (simple a) eqn:S; cbn [negb bracket].
    + apply (atom_sign false a). now apply IS.
    + apply (atom_sign_paren false a). eapply level_completes, IA.
  - destruct W as [WA WB]. destruct (IHa WA) as [IA _]. destruct (IHb WB) as [IB _]. split; [|discriminate].
    destruct o; cbn [level at_level body].
    + apply op_sum; [auto|exact (bracket_level 0 a ltac:(lia) IA)|]. apply term_completes. exact (bracket_level 1 b ltac:(lia) IB).
    + apply op_sum; [auto|exact (bracket_level 0 a ltac:(lia) IA)|]. apply term_completes. exact (bracket_level 1 b ltac:(lia) IB).
    + apply op_product; [auto|exact (bracket_level 1 a ltac:(lia) IA)|exact (bracket_level 2 b ltac:(lia) IB)].
    + apply op_product; [auto|exact (bracket_level 1 a ltac:(lia) IA)|exact (bracket_level 2 b ltac:(lia) IB)].
    + apply op_power; [exact (bracket_level 3 a ltac:(lia) IA)|exact (bracket_level 2 b ltac:(lia) IB)].
Qed.
Theorem parse_written e t : wf name_ok e -> written (toks e) t -> parse t = Some (pf e).
Proof.
  intros W R. destruct (parse_tree e W) as [L _]. apply level_completes in L. rewrite <- (app_nil_r (toks e)) in R.
  destruct (L [] t [] (8 * length t + 9) R I ltac:(lia)) as (t' & W' & _ & E). unfold parse. rewrite E. inversion W'; subst. rewrite skip_only by assumption. reflexivity.
Qed.
