(* Proofs about the parser of spec commands. *)
From Coq Require Import String QArith Qcanon Permutation.
From Verif Require Import ScanModel ScanSpec TextProofs.
Local Open Scope nat_scope.
Lemma some_eq {A} (a b : A) : Some a = Some b -> a = b.
Proof. congruence. Qed.

(* ---- character classes ---- *)
Definition all (p : ascii -> bool) (w : chars) : Prop := Forall (fun c => p c = true) w.
Lemma is_blank_spec c : is_blank c = true <-> blank c.
Proof.
  unfold is_blank, blank. rewrite existsb_exists. split.
  - intros [x [Hx E]]. apply Nat.eqb_eq in E. rewrite E. exact Hx.
  - intros H. exists (nat_of_ascii c). split; [exact H | apply Nat.eqb_refl].
Qed.
Lemma is_letter_spec c : is_letter c = true <-> letter c.
Proof. unfold is_letter, letter. rewrite orb_true_iff, !andb_true_iff, !Nat.leb_le. tauto. Qed.
Lemma class_blank c : is_letter_num c = true \/ is_sign c = true \/ is_point c = true -> is_blank c = false.
Proof.
  destruct c as [[] [] [] [] [] [] [] []]; cbv; intros [H | [H | H]]; congruence.
Qed.
Lemma sign_not c : is_sign c = true -> digit c = false /\ is_point c = false.
Proof. destruct c as [[] [] [] [] [] [] [] []]; cbv; intros H; split; congruence. Qed.
Lemma point_not c : is_point c = true -> digit c = false /\ is_sign c = false.
Proof. destruct c as [[] [] [] [] [] [] [] []]; cbv; intros H; split; congruence. Qed.
Lemma digit_not c : digit c = true -> is_letter c = false /\ is_sign c = false /\ is_point c = false.
Proof. destruct c as [[] [] [] [] [] [] [] []]; cbv; intros H; repeat split; congruence. Qed.
Lemma blank_not c : is_blank c = true -> digit c = false /\ is_sign c = false /\ is_point c = false /\ is_letter c = false.
Proof. destruct c as [[] [] [] [] [] [] [] []]; cbv; intros H; repeat split; congruence. Qed.

(* ---- expressions ---- *)
Lemma stars_spec p : forall s w r, In (w, r) (stars p s) <-> s = w ++ r /\ all p w.
Proof.
  unfold all. induction s as [|c s IH]; intros w r; cbn [stars].
  - split.
    + intros [E | []]. injection E as <- <-. auto.
    + intros [E _]. symmetry in E. apply app_eq_nil in E as [-> ->]. left. reflexivity.
  - destruct (p c) eqn:Hp.
    + rewrite in_app_iff, in_map_iff. split.
      * intros [[[a b] [E H]] | [E | []]].
        -- cbn in E. injection E as <- <-. apply IH in H as [-> H]. split; [reflexivity | constructor; assumption].
        -- injection E as <- <-. auto.
      * intros [E H]. destruct w as [|x w].
        -- right. left. cbn in E. rewrite E. reflexivity.
        -- left. cbn in E. injection E as <- E. inversion H; subst. exists (w, r). split; [reflexivity | apply IH; auto].
    + split.
      * intros [E | []]. injection E as <- <-. auto.
      * intros [E H]. destruct w as [|x w]; [left; cbn in E; rewrite E; reflexivity|].
        cbn in E. injection E as <- E. inversion H; congruence.
Qed.
Lemma plus1_spec p s w r : In (w, r) (plus1 p s) <-> s = w ++ r /\ w <> [] /\ all p w.
Proof.
  unfold plus1. destruct s as [|c s].
  - split; [intros [] | intros [E [H _]]]. symmetry in E. apply app_eq_nil in E as [-> _]. congruence.
  - destruct (p c) eqn:Hp.
    + rewrite in_map_iff. split.
      * intros [[a b] [E H]]. cbn in E. injection E as <- <-. apply stars_spec in H as [-> H].
        split; [reflexivity | split; [congruence | constructor; assumption]].
      * intros [E [N H]]. destruct w as [|x w]; [congruence|]. cbn in E. injection E as <- E. inversion H; subst.
        exists (w, r). split; [reflexivity | apply stars_spec; auto].
    + split; [intros [] | intros [E [N H]]]. destruct w as [|x w]; [congruence|]. cbn in E. injection E as <- E. inversion H; congruence.
Qed.
Lemma maybe_spec p s w r : In (w, r) (maybe p s) <-> s = w ++ r /\ (w = [] \/ exists c, w = [c] /\ p c = true).
Proof.
  unfold maybe. destruct s as [|c s].
  - split.
    + intros [E | []]. injection E as <- <-. auto.
    + intros [E _]. symmetry in E. apply app_eq_nil in E as [-> ->]. left. reflexivity.
  - destruct (p c) eqn:Hp.
    + split.
      * intros [E | [E | []]]; injection E as <- <-; eauto.
      * intros [E [-> | [x [-> Hx]]]]; cbn in E.
        -- right. left. rewrite E. reflexivity.
        -- left. injection E as -> ->. reflexivity.
    + split.
      * intros [E | []]. injection E as <- <-. auto.
      * intros [E [-> | [x [-> Hx]]]]; cbn in E.
        -- left. rewrite E. reflexivity.
        -- injection E as -> ->. congruence.
Qed.
Lemma seq2_spec (f g : chars -> list (chars * chars)) (P R : chars -> Prop) :
  (forall s w r, In (w, r) (f s) <-> s = w ++ r /\ P w) -> (forall s w r, In (w, r) (g s) <-> s = w ++ r /\ R w) ->
  forall s w r, In (w, r) (seq2 f g s) <-> s = w ++ r /\ exists a b, w = a ++ b /\ P a /\ R b.
Proof.
  intros Hf Hg s w r. unfold seq2. rewrite in_flat_map. split.
  - intros [[a s'] [Ha H]]. apply in_map_iff in H as [[b r'] [E Hb]]. cbn in E, Hb. injection E as <- <-.
    apply Hf in Ha as [-> Ha]. apply Hg in Hb as [-> Hb]. rewrite app_assoc. split; [reflexivity|]. exists a, b. auto.
  - intros [-> [a [b [-> [Ha Hb]]]]]. exists (a, b ++ r). split; [apply Hf; rewrite app_assoc; auto|].
    apply in_map_iff. exists (b, r). split; [reflexivity|]. apply Hg. auto.
Qed.

(* the texts of a token *)
Definition fl (w : chars) : Prop :=
  exists s u, w = s ++ u /\ (s = [] \/ exists c, s = [c] /\ is_sign c = true) /\
  exists a v, u = a ++ v /\ all digit a /\ exists p b, v = p ++ b /\ (p = [] \/ exists c, p = [c] /\ is_point c = true) /\ b <> [] /\ all digit b.
Definition L (t : tok) (w : chars) : Prop :=
  match t with
  | TWord v => w = v
  | TMotor => w <> [] /\ all is_letter w
  | TMotornum => w <> [] /\ all is_letter_num w
  | TInt => w <> [] /\ all digit w
  | TFloat => fl w
  end.
Lemma starts_spec w : forall s r, starts w s = Some r <-> s = w ++ r.
Proof.
  induction w as [|a w IH]; intros s r; cbn [starts].
  - split; [intros E; injection E as ->; reflexivity | intros ->; reflexivity].
  - destruct s as [|b s]; [split; discriminate|].
    destruct (ascii_eqb a b) eqn:E.
    + apply ascii_eqb_spec in E as ->. rewrite IH. cbn. split; [intros ->; reflexivity | intros E; injection E as ->; reflexivity].
    + split; [discriminate|]. cbn. intros H. injection H as -> _. rewrite ascii_eqb_refl in E. discriminate.
Qed.
Lemma fnumber_spec s w r : In (w, r) (fnumber s) <-> s = w ++ r /\ fl w.
Proof.
  unfold fnumber, fl. apply seq2_spec; [intros; apply maybe_spec|].
  intros. apply seq2_spec; [intros; apply stars_spec|].
  intros. apply seq2_spec; [intros; apply maybe_spec | intros; apply plus1_spec].
Qed.
Lemma alts_spec t s w r : In (w, r) (alts t s) <-> s = w ++ r /\ L t w.
Proof.
  destruct t as [v| | | |]; cbn [alts L]; try apply plus1_spec; [|apply fnumber_spec].
  destruct (starts v s) as [r'|] eqn:E.
  - apply starts_spec in E as ->. split.
    + intros [H | []]. injection H as <- <-. auto.
    + intros [H ->]. apply app_inv_head in H as ->. left. reflexivity.
  - split; [intros [] | intros [-> ->]]. assert (H : starts v (v ++ r) = Some r) by (apply starts_spec; reflexivity). congruence.
Qed.

(* ---- matches ---- *)
(* a match whose last word is the preferred one *)
Inductive chosen : pattern -> chars -> list (chars * chars) -> Prop :=
| Ch_last : forall k t s w r, hd_error (alts t s) = Some (w, r) -> chosen [(k, t)] s [(k, w)]
| Ch_step : forall k t p s w b s' g, p <> [] -> s = w ++ b ++ s' -> L t w -> b <> [] -> all is_blank b -> chosen p s' g ->
    chosen ((k, t) :: p) s ((k, w) :: g).
Lemma hd_flat_map {A B} (f : A -> list B) l x : hd_error (flat_map f l) = Some x -> exists a, In a l /\ hd_error (f a) = Some x.
Proof.
  induction l as [|a l IH]; cbn [flat_map]; [discriminate|]. destruct (f a) as [|y ys] eqn:E.
  - cbn. intros H. destruct (IH H) as [a' [Ha H']]. exists a'. split; [right|]; assumption.
  - cbn. intros H. exists a. split; [left; reflexivity|]. rewrite E. exact H.
Qed.
Lemma matches_cons k t e p s : matches ((k, t) :: e :: p) s =
  flat_map (fun m => flat_map (fun b => map (cons (k, fst m)) (matches (e :: p) (snd b))) (plus1 is_blank (snd m))) (alts t s).
Proof. reflexivity. Qed.
Lemma hd_map {A B} (f : A -> B) l x : hd_error (map f l) = Some x -> exists a, hd_error l = Some a /\ x = f a.
Proof. destruct l; cbn; [discriminate|]. intros E. exists a. split; [reflexivity | congruence]. Qed.
Lemma matches_chosen p : forall s g, p <> [] -> hd_error (matches p s) = Some g -> chosen p s g.
Proof.
  induction p as [|[k t] p IH]; intros s g N H; [congruence|]. destruct p as [|e p].
  - cbn [matches] in H. apply hd_map in H as [[w r] [H ->]]. econstructor. exact H.
  - rewrite matches_cons in H. apply hd_flat_map in H as [[w r] [Hw H]]. apply hd_flat_map in H as [[b s'] [Hb H]].
    apply hd_map in H as [g' [H ->]]. cbn [fst snd] in *. apply alts_spec in Hw as [-> Hw]. apply plus1_spec in Hb as [-> [Nb Hb]].
    apply Ch_step with (b := b) (s' := s'); try assumption; try reflexivity; [discriminate|]. apply IH; [discriminate | exact H].
Qed.
(* a layout in words of the tokens of the pattern *)
Inductive fits : pattern -> list chars -> chars -> chars -> Prop :=
| Fi_last : forall k t w r, L t w -> fits [(k, t)] [w] r (w ++ r)
| Fi_step : forall k t p w b ws r s', p <> [] -> L t w -> b <> [] -> all is_blank b -> fits p ws r s' ->
    fits ((k, t) :: p) (w :: ws) r (w ++ b ++ s').
Lemma fits_matches p ws r s : fits p ws r s -> matches p s <> [].
Proof.
  induction 1 as [k t w r Hw | k t p w b ws r s' N Hw Nb Hb H IH].
  - cbn [matches]. assert (Hin : In (w, r) (alts t (w ++ r))) by (apply alts_spec; auto).
    intros E. apply map_eq_nil in E. rewrite E in Hin. exact Hin.
  - destruct p as [|e p]; [congruence|]. rewrite matches_cons. destruct (matches (e :: p) s') as [|g gs] eqn:E; [congruence|].
    intros F. assert (Hin : In ((k, w) :: g) []); [|exact Hin]. rewrite <- F. apply in_flat_map. exists (w, b ++ s').
    split; [apply alts_spec; auto|]. apply in_flat_map. exists (b, s'). split; [apply plus1_spec; auto|].
    cbn [fst snd]. rewrite E. left. reflexivity.
Qed.
Lemma chosen_fits p s g : chosen p s g -> map fst g = map fst p /\ exists r, fits p (map snd g) r s.
Proof.
  induction 1 as [k t s w r H | k t p s w b s' g N -> Hw Nb Hb H [IH1 [r IH2]]].
  - split; [reflexivity|]. assert (Hin : In (w, r) (alts t s)) by (destruct (alts t s); cbn in H; [discriminate|]; left; congruence).
    apply alts_spec in Hin as [-> Hin]. exists r. constructor. exact Hin.
  - split; [cbn; f_equal; exact IH1|]. exists r. cbn [map snd]. constructor; assumption.
Qed.
(* words without blanks, and not empty *)
Definition solid (w : chars) : Prop := w <> [] /\ Forall (fun c => is_blank c = false) w.
Lemma all_solid p w : (forall c, p c = true -> is_blank c = false) -> w <> [] -> all p w -> solid w.
Proof. intros H N A. split; [exact N|]. eapply Forall_impl; [|exact A]. exact H. Qed.
Lemma fl_solid w : fl w -> solid w.
Proof.
  intros [s [u [-> [Hs [a [v [-> [Ha [p [b [-> [Hp [Nb Hb]]]]]]]]]]]]]. split.
  - intros E. apply app_eq_nil in E as [_ E]. apply app_eq_nil in E as [_ E]. apply app_eq_nil in E as [_ E]. congruence.
  - assert (D : forall c, digit c = true -> is_blank c = false).
    { intros c Hc. apply class_blank. left. unfold is_letter_num. rewrite Hc. apply orb_true_r. }
    rewrite !Forall_app. repeat split.
    + destruct Hs as [-> | [c [-> Hc]]]; [constructor|]. constructor; [apply class_blank; auto | constructor].
    + eapply Forall_impl; [|exact Ha]. exact D.
    + destruct Hp as [-> | [c [-> Hc]]]; [constructor|]. constructor; [apply class_blank; auto | constructor].
    + eapply Forall_impl; [|exact Hb]. exact D.
Qed.
Lemma L_solid t w : (forall v, t = TWord v -> solid v) -> L t w -> solid w.
Proof.
  destruct t as [v| | | |]; cbn [L]; intros HW.
  - intros ->. apply HW. reflexivity.
  - intros [N A]. apply (all_solid is_letter); try assumption. intros c Hc. apply class_blank. left. unfold is_letter_num. rewrite Hc. reflexivity.
  - intros [N A]. apply (all_solid is_letter_num); try assumption. intros c Hc. apply class_blank. left. exact Hc.
  - intros [N A]. apply (all_solid digit); try assumption. intros c Hc. apply class_blank. left. unfold is_letter_num. rewrite Hc. apply orb_true_r.
  - apply fl_solid.
Qed.
Definition words_solid (p : pattern) : Prop := Forall (fun e => forall v, snd e = TWord v -> solid v) p.
Definition starts_blank (s : chars) : Prop := match s with c :: _ => is_blank c = true | [] => True end.
Definition starts_solid (s : chars) : Prop := match s with c :: _ => is_blank c = false | [] => False end.
Lemma split_run : forall w w' x x', Forall (fun c => is_blank c = false) w -> Forall (fun c => is_blank c = false) w' ->
  starts_blank x -> starts_blank x' -> w ++ x = w' ++ x' -> w = w' /\ x = x'.
Proof.
  induction w as [|c w IH]; intros [|c' w'] x x' Hw Hw' Hx Hx' E; cbn in E.
  - auto.
  - subst x. inversion Hw'; subst. cbn [starts_blank starts_solid] in Hx. congruence.
  - subst x'. inversion Hw; subst. cbn [starts_blank starts_solid] in Hx'. congruence.
  - injection E as -> E. inversion Hw; inversion Hw'; subst. destruct (IH w' x x') as [-> ->]; auto.
Qed.
Lemma split_blanks : forall b b' x x', all is_blank b -> all is_blank b' -> starts_solid x -> starts_solid x' ->
  b ++ x = b' ++ x' -> b = b' /\ x = x'.
Proof.
  unfold all. induction b as [|c b IH]; intros [|c' b'] x x' Hb Hb' Hx Hx' E; cbn in E.
  - auto.
  - subst x. inversion Hb'; subst. cbn [starts_blank starts_solid] in Hx. congruence.
  - subst x'. inversion Hb; subst. cbn [starts_blank starts_solid] in Hx'. congruence.
  - injection E as -> E. inversion Hb; inversion Hb'; subst. destruct (IH b' x x') as [-> ->]; auto.
Qed.
Lemma blanks_start b x : b <> [] -> all is_blank b -> starts_blank (b ++ x).
Proof. destruct b as [|c b]; [congruence|]. intros _ H. inversion H; subst. assumption. Qed.
Lemma solid_start w x : solid w -> starts_solid (w ++ x).
Proof. intros [N H]. destruct w as [|c w]; [congruence|]. inversion H; subst. assumption. Qed.
Lemma fits_start p ws r s : words_solid p -> fits p ws r s -> starts_solid s.
Proof. intros W H. inversion H; subst; inversion W as [|? ? W1 W2]; subst; apply solid_start; (eapply L_solid; [exact W1 | assumption]). Qed.
(* two readings of the same text agree on all words but the last *)
Inductive agree : list chars -> list chars -> Prop :=
| Ag_last : forall w w', agree [w] [w']
| Ag_step : forall w ws ws', agree ws ws' -> agree (w :: ws) (w :: ws').
Lemma fits_agree p ws r s : fits p ws r s -> words_solid p -> forall p' ws' r', words_solid p' -> length p = length p' -> fits p' ws' r' s ->
  agree ws ws'.
Proof.
  induction 1 as [k t w r Hw | k t p w b ws r s' N Hw Nb Hb H IH]; intros W p' ws' r' W' Hl H'.
  - destruct p' as [|e [|e' p']]; cbn in Hl; try discriminate. inversion H'; subst; [constructor | congruence].
  - inversion H' as [k' t' w' r'' Hw' | k' t' p'' w' b' ws'' r'' s'' N' Hw' Nb' Hb' Hf]; subst.
    + destruct p; cbn in Hl; [congruence | discriminate].
    + inversion W as [|? ? W1 W2]; inversion W' as [|? ? W3 W4]; subst.
      assert (S1 : solid w) by exact (L_solid t w W1 Hw). assert (S2 : solid w') by exact (L_solid t' w' W3 Hw').
      match goal with E : w' ++ _ = w ++ _ |- _ => destruct (split_run w' w _ _ (proj2 S2) (proj2 S1) (blanks_start _ _ Nb' Hb') (blanks_start _ _ Nb Hb) E) as [-> E2] end.
      destruct (split_blanks b' b s'' s' Hb' Hb (fits_start _ _ _ _ W4 Hf) (fits_start _ _ _ _ W2 H) E2) as [-> ->].
      constructor. apply (IH W2 p'' ws'' r' W4); [cbn in Hl; lia | exact Hf].
Qed.
(* the preferred reading of the last word is the longest *)
Definition stops (s : chars) : Prop := starts_blank s.
Lemma stars_hd p : forall (w r : chars), all p w -> (match r with c :: _ => p c = false | [] => True end) -> hd_error (stars p (w ++ r)) = Some (w, r).
Proof.
  induction w as [|c w IH]; intros r Hw Hr; cbn [app].
  - destruct r as [|c r]; cbn [stars]; [reflexivity|]. rewrite Hr. reflexivity.
  - inversion Hw; subst. cbn [stars]. rewrite H1. specialize (IH r H2 Hr). destruct (stars p (w ++ r)) as [|m ms]; cbn in *; [discriminate|].
    apply some_eq in IH as ->. reflexivity.
Qed.
Lemma stars_two p : forall (w : chars) c (r : chars), all p w -> p c = true -> (match r with c :: _ => p c = false | [] => True end) ->
  exists l, stars p (w ++ c :: r) = (w ++ [c], r) :: (w, c :: r) :: l.
Proof.
  induction w as [|x w IH]; intros c r Hw Hc Hr; cbn [app].
  - cbn [stars]. rewrite Hc. destruct r as [|y r]; cbn [stars map app]; [exists []; reflexivity|]. rewrite Hr. exists []. reflexivity.
  - inversion Hw; subst. cbn [stars]. rewrite H1. destruct (IH c r H2 Hc Hr) as [l ->]. cbn. eexists. reflexivity.
Qed.
Lemma plus1_hd p (w r : chars) : w <> [] -> all p w -> (match r with c :: _ => p c = false | [] => True end) -> hd_error (plus1 p (w ++ r)) = Some (w, r).
Proof.
  intros N Hw Hr. destruct w as [|c w]; [congruence|]. inversion Hw; subst. cbn [app plus1]. rewrite H1.
  pose proof (stars_hd p w r H2 Hr) as H. destruct (stars p (w ++ r)) as [|m ms]; cbn in *; [discriminate|].
  apply some_eq in H as ->. reflexivity.
Qed.
Lemma seq2_hd (f g : chars -> list (chars * chars)) (s a s' b r : chars) : hd_error (f s) = Some (a, s') -> hd_error (g s') = Some (b, r) -> hd_error (seq2 f g s) = Some (a ++ b, r).
Proof.
  unfold seq2. intros Hf Hg. destruct (f s) as [|m ms]; cbn in Hf; [discriminate|]. apply some_eq in Hf as ->.
  cbn [flat_map fst snd]. destruct (g s') as [|n ns]; cbn in Hg; [discriminate|]. apply some_eq in Hg as ->. reflexivity.
Qed.
Lemma stops_not (p : ascii -> bool) r : (forall c, is_blank c = true -> p c = false) -> stops r -> match r with c :: _ => p c = false | [] => True end.
Proof. intros H. destruct r; [auto|]. apply H. Qed.
Lemma number_hd (a p b r : chars) : all digit a -> (p = [] \/ exists c, p = [c] /\ is_point c = true) -> b <> [] -> all digit b -> stops r ->
  hd_error (seq2 (stars digit) (seq2 (maybe is_point) (plus1 digit)) ((a ++ p ++ b) ++ r)) = Some (a ++ p ++ b, r).
Proof.
  intros Ha Hp Nb Hb Hr. assert (Hd : match r with c :: _ => digit c = false | [] => True end) by (apply stops_not; [apply blank_not | exact Hr]).
  destruct Hp as [-> | [c [-> Hc]]].
  - cbn [app]. destruct (@exists_last _ b Nb) as [b' [c ->]]. rewrite app_assoc.
    assert (A : all digit ((a ++ b') ++ [c])). { unfold all in *. rewrite <- app_assoc. apply Forall_app; auto. }
    set (w := a ++ b') in *. apply Forall_app in A as [A B]. inversion B; subst. clearbody w. rewrite <- app_assoc. cbn [app].
    destruct (stars_two digit w c r A H1 Hd) as [l E]. unfold seq2 at 1. rewrite E. cbn [flat_map fst snd].
    assert (Z1 : seq2 (maybe is_point) (plus1 digit) r = []).
    { unfold seq2, maybe. destruct r as [|x r]; [reflexivity|].
      destruct (is_point x) eqn:Hx; [apply (proj1 (proj2 (proj2 (blank_not _ Hr)))) in Hx as [] || (pose proof (blank_not _ Hr) as [_ [_ [Q _]]]; congruence)|].
      cbn [flat_map fst snd]. unfold plus1. cbn in Hd. rewrite Hd. reflexivity. }
    rewrite Z1. cbn [map app].
    assert (Z2 : hd_error (seq2 (maybe is_point) (plus1 digit) (c :: r)) = Some ([c], r)).
    { apply (seq2_hd _ _ _ [] (c :: r) [c] r).
      - cbn [maybe]. pose proof (digit_not _ H1) as [_ [_ Q]]. rewrite Q. reflexivity.
      - apply (plus1_hd digit [c] r); [discriminate | constructor; [exact H1 | constructor] | exact Hd]. }
    destruct (seq2 (maybe is_point) (plus1 digit) (c :: r)) as [|n ns]; cbn in Z2; [discriminate|].
    apply some_eq in Z2 as ->. reflexivity.
  - apply (seq2_hd _ _ _ a (([c] ++ b) ++ r) ([c] ++ b) r).
    + rewrite <- app_assoc. apply stars_hd; [exact Ha|]. cbn. apply point_not in Hc as [Q _]. exact Q.
    + apply (seq2_hd _ _ _ [c] (b ++ r) b r); [cbn [app maybe]; rewrite Hc; reflexivity|]. apply plus1_hd; assumption.
Qed.
Lemma fl_hd (w r : chars) : fl w -> stops r -> hd_error (fnumber (w ++ r)) = Some (w, r).
Proof.
  intros [s [u [-> [Hs [a [v [-> [Ha [p [b [-> [Hp [Nb Hb]]]]]]]]]]]]] Hr. unfold fnumber. rewrite <- app_assoc.
  apply (seq2_hd _ _ _ s ((a ++ p ++ b) ++ r)); [|apply number_hd; assumption].
  destruct Hs as [-> | [c [-> Hc]]]; [|cbn [app maybe]; rewrite Hc; reflexivity]. cbn [app].
  assert (Q : exists x y, (a ++ p ++ b) ++ r = x :: y /\ is_sign x = false).
  { destruct a as [|x a].
    - destruct Hp as [-> | [x [-> Hx]]].
      + destruct b as [|x b]; [congruence|]. inversion Hb; subst. cbn. eexists; eexists; split; [reflexivity|]. apply digit_not; assumption.
      + cbn. eexists; eexists; split; [reflexivity|]. apply point_not; assumption.
    - inversion Ha; subst. cbn. eexists; eexists; split; [reflexivity|]. apply digit_not; assumption. }
  destruct Q as [x [y [-> Q]]]. cbn [maybe]. rewrite Q. reflexivity.
Qed.
Lemma letter_num_blank c : is_blank c = true -> is_letter_num c = false.
Proof. intros H. apply blank_not in H as [A [_ [_ B]]]. unfold is_letter_num. rewrite A, B. reflexivity. Qed.
Lemma alts_hd t w r : L t w -> stops r -> hd_error (alts t (w ++ r)) = Some (w, r).
Proof.
  destruct t as [v| | | |]; cbn [L alts].
  - intros -> _. replace (starts v (v ++ r)) with (Some r); [reflexivity|]. symmetry. apply starts_spec. reflexivity.
  - intros [N A] Hr. apply plus1_hd; try assumption. apply stops_not; [apply blank_not | exact Hr].
  - intros [N A] Hr. apply plus1_hd; try assumption. apply stops_not; [apply letter_num_blank | exact Hr].
  - intros [N A] Hr. apply plus1_hd; try assumption. apply stops_not; [apply blank_not | exact Hr].
  - apply fl_hd.
Qed.
Lemma chosen_words p ws r s : fits p ws r s -> stops r -> words_solid p -> forall g, chosen p s g -> g = combine (map fst p) ws.
Proof.
  induction 1 as [k t w r Hw | k t p w b ws r s' N Hw Nb Hb H IH]; intros Hr W g Hg.
  - inversion Hg as [k' t' s w' r' E |]; subst; [|congruence]. pose proof (alts_hd t w r Hw Hr) as E'. rewrite E' in E.
    cbn. assert (w' = w) as -> by congruence. reflexivity.
  - inversion Hg as [| k' t' p' s w' b' s'' g' N' E Hw' Nb' Hb' Hc]; subst; [congruence|]. inversion W as [|? ? W1 W2]; subst.
    assert (S1 : solid w) by exact (L_solid t w W1 Hw). assert (S2 : solid w') by exact (L_solid t w' W1 Hw').
    destruct (split_run w' w _ _ (proj2 S2) (proj2 S1) (blanks_start _ _ Nb' Hb') (blanks_start _ _ Nb Hb) (eq_sym E)) as [-> E2].
    destruct (chosen_fits _ _ _ Hc) as [_ [r' Hf]].
    destruct (split_blanks b' b s'' s' Hb' Hb (fits_start _ _ _ _ W2 Hf) (fits_start _ _ _ _ W2 H) E2) as [-> ->].
    cbn. f_equal. apply IH; assumption.
Qed.
Lemma first_match_fits p ws r s : fits p ws r s -> stops r -> words_solid p -> first_match p s = Some (combine (map fst p) ws).
Proof.
  intros H Hr W. assert (N : p <> []) by (inversion H; discriminate). unfold first_match.
  destruct (hd_error (matches p s)) as [g|] eqn:E.
  - f_equal. eapply chosen_words; eauto. apply matches_chosen; assumption.
  - exfalso. apply (fits_matches _ _ _ _ H). destruct (matches p s); [reflexivity | discriminate].
Qed.
Lemma first_match_sound p s g : p <> [] -> first_match p s = Some g -> map fst g = map fst p /\ exists r, fits p (map snd g) r s.
Proof. intros N H. eapply chosen_fits, matches_chosen; eassumption. Qed.
