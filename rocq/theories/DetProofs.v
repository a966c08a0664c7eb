From Coq Require Import String.
From Verif Require BaseProofs.
From Verif Require Import NameSpec TextProofs DetModel DetSpec.

(* ---- names ---- *)
Lemma lower_char_cases c : (65 <= nat_of_ascii c <= 90 /\ nat_of_ascii (lower_char c) = nat_of_ascii c + 32)%nat \/ (~ (65 <= nat_of_ascii c <= 90)%nat /\ lower_char c = c).
Proof.
  unfold lower_char. pose proof (nat_ascii_bounded c) as B. destruct (_ && _) eqn:E.
  - apply andb_prop in E as [E1 E2]. left. split; [lia|]. unfold ch. rewrite nat_ascii_embedding; lia.
  - right. split; [|reflexivity]. apply andb_false_iff in E as [E|E]; lia.
Qed.
Lemma nat_of_ascii_inj c d : nat_of_ascii c = nat_of_ascii d -> c = d.
Proof. intros H. rewrite <- (ascii_nat_embedding c), <- (ascii_nat_embedding d). now rewrite H. Qed.
Lemma lower_same c d : (97 <= nat_of_ascii d <= 122)%nat -> lower_char c = d <-> same_letter c d.
Proof.
  intros D. unfold same_letter. destruct (lower_char_cases c) as [[U L]|[U L]].
  - split.
    + intros <-. right. split; [now rewrite L|exact U].
    + intros [-> | [E _]]; [lia|]. apply nat_of_ascii_inj. congruence.
  - rewrite L. split; [now left|]. intros [E|[_ E]]; [exact E|lia].
Qed.
Lemma lower_digit c : digit (lower_char c) = true -> lower_char c = c /\ digit c = true.
Proof.
  intros H. destruct (lower_char_cases c) as [[U L]|[U L]]; [|rewrite L in *; auto]. unfold digit in H. apply andb_prop in H as [H1 H2]. lia.
Qed.
Lemma digit_lower c : digit c = true -> lower_char c = c.
Proof. intros H. destruct (lower_char_cases c) as [[U L]|[U L]]; [|exact L]. unfold digit in H. apply andb_prop in H as [H1 H2]. lia. Qed.
Lemma after_spec p s r : after p s = Some r <-> s = p ++ r.
Proof.
  revert s. induction p as [|c p IH]; intros s; cbn; [split; [now intros [= ->]|now intros ->]|]. destruct s as [|d s]; [split; discriminate|]. destruct (ascii_eqb c d) eqn:E.
  - apply ascii_eqb_spec in E. subst d. rewrite IH. split; [now intros ->|now intros [= ->]].
  - split; [discriminate|]. intros [= -> _]. now rewrite ascii_eqb_refl in E.
Qed.
Definition letters : chars := txt "beamfilter".
Lemma lower_same_list p l : Forall (fun d => (97 <= nat_of_ascii d <= 122)%nat) l -> map lower_char p = l <-> Forall2 same_letter p l.
Proof.
  intros F. revert p. induction F as [|d l D F IH]; intros p.
  - split; [destruct p; [constructor|discriminate]|]. intros H. now inversion H.
  - split.
    + destruct p as [|c p]; [discriminate|]. cbn. intros [= E1 E2]. constructor; [now apply lower_same|now apply IH].
    + intros H. inversion H as [|c d' p' l' S T]; subst. cbn. f_equal; [now apply lower_same|now apply IH].
Qed.
Lemma letters_low : Forall (fun d => (97 <= nat_of_ascii d <= 122)%nat) letters.
Proof. unfold letters. cbn. repeat (constructor; [cbn; lia|]). constructor. Qed.
Lemma digits_lower q : Forall (fun c => digit c = true) q -> map lower_char q = q.
Proof. induction 1 as [|c q C F IH]; [reflexivity|]. cbn. rewrite IH, digit_lower by exact C. reflexivity. Qed.
Lemma lower_digits q : Forall (fun c => digit c = true) (map lower_char q) -> map lower_char q = q.
Proof. induction q as [|c q IH]; [reflexivity|]. cbn. intros H. inversion H as [|? ? C F]; subst. apply lower_digit in C as [-> _]. now rewrite IH. Qed.
Lemma match_spec name n : match_beamfilter name = Some n <-> exists q, beam_name name q /\ n = int_of q.
Proof.
  unfold match_beamfilter, beam_name. fold letters. destruct (after letters (map lower_char name)) as [r|] eqn:E.
  - apply after_spec in E. assert (SP : exists p q, name = p ++ q /\ map lower_char p = letters /\ map lower_char q = r).
    { exists (firstn (length letters) name), (skipn (length letters) name). split; [symmetry; apply firstn_skipn|]. rewrite <- (firstn_map lower_char), <- skipn_map, E. split; [rewrite firstn_app, Nat.sub_diag, firstn_all; reflexivity|]. rewrite skipn_app, Nat.sub_diag, skipn_all. reflexivity. }
    destruct SP as (p & q & -> & P & Q). split.
    + destruct r as [|c r]; [discriminate|]. destruct (forallb digit (c :: r)) eqn:D; [|discriminate]. intros [= <-]. rewrite forallb_forall in D. assert (F : Forall (fun c => digit c = true) (c :: r)) by (apply Forall_forall; exact D). exists q. rewrite <- Q in F. pose proof (lower_digits _ F) as LQ. rewrite LQ in F. split; [|congruence]. exists p. split; [reflexivity|]. split; [apply lower_same_list; [apply letters_low|exact P]|]. split; [|exact F]. intros ->. discriminate.
    + intros (q' & (p' & E' & P' & N & F) & ->). apply lower_same_list in P'; [|apply letters_low]. assert (L : length p = length p') by (rewrite <- (map_length lower_char p), <- (map_length lower_char p'); now rewrite P, P').
      assert (X : p = p' /\ q = q').
      { apply (f_equal (firstn (length p))) in E' as F1. rewrite L in F1 at 2. rewrite !firstn_app, L, !Nat.sub_diag in F1. rewrite <- L in F1 at 1. rewrite !firstn_all in F1. cbn in F1. rewrite !app_nil_r in F1. subst p'. split; [reflexivity|]. now apply app_inv_head in E'. }
      destruct X as [<- <-]. rewrite digits_lower in Q by exact F. subst r. destruct q as [|c q]; [congruence|]. replace (forallb digit (c :: q)) with true; [reflexivity|]. symmetry. apply forallb_forall. now apply Forall_forall.
  - split; [discriminate|]. intros (q & (p & -> & P & N & F) & _). exfalso. apply lower_same_list in P; [|apply letters_low]. assert (A : after letters (map lower_char (p ++ q)) = Some q) by (apply after_spec; rewrite map_app, P, digits_lower by exact F; reflexivity). congruence.
Qed.
Lemma beam_spec n : isbeamfilter n false = true <-> is_beam n.
Proof.
  unfold isbeamfilter, is_beam. rewrite andb_false_r, orb_false_r. destruct (match_beamfilter n) as [k|] eqn:E.
  - split; [|reflexivity]. intros _. apply match_spec in E as (q & B & _). now exists q.
  - split; [discriminate|]. intros (q & B). assert (X : match_beamfilter n = Some (int_of q)) by (apply match_spec; eauto). congruence.
Qed.
Lemma beam_true n : isbeamfilter n true = true <-> is_beam n \/ n = ATMOSPHERE.
Proof. rewrite <- beam_spec. unfold isbeamfilter. rewrite andb_false_r, orb_false_r, andb_true_r, orb_true_iff, chars_eqb_spec. reflexivity. Qed.
Lemma not_beam : ~ is_beam DETECTOR /\ ~ is_beam ATMOSPHERE.
Proof. rewrite <- !beam_spec. split; vm_compute; discriminate. Qed.
Lemma detf_false n : isdetectorfilter n false = true <-> ~ is_beam n /\ n <> DETECTOR.
Proof.
  unfold isdetectorfilter. rewrite orb_true_r, andb_true_r, andb_true_iff, !negb_true_iff. rewrite <- beam_spec. pose proof (chars_eqb_spec n DETECTOR) as C. destruct (isbeamfilter n false), (chars_eqb n DETECTOR); intuition congruence.
Qed.
Lemma detf_true n : isdetectorfilter n true = true <-> ~ is_beam n /\ n <> DETECTOR /\ n <> ATMOSPHERE.
Proof.
  unfold isdetectorfilter. rewrite orb_false_r, !andb_true_iff, !negb_true_iff. rewrite <- beam_spec. pose proof (chars_eqb_spec n DETECTOR) as C. pose proof (chars_eqb_spec n ATMOSPHERE) as C'. destruct (isbeamfilter n false), (chars_eqb n DETECTOR), (chars_eqb n ATMOSPHERE); intuition congruence.
Qed.
Lemma select_filter {A} (f : chars -> bool) P (l : list (chars * A)) : (forall n, f n = true <-> P n) -> select P l (map snd (filter (fun e => f (fst e)) l)).
Proof.
  intros H. induction l as [|[n a] l IH]; cbn [filter map]; [constructor|]. cbn [fst]. destruct (f n) eqn:E; cbn [map snd]; [constructor; [now apply H|exact IH]|]. constructor; [|exact IH]. intros X. apply H in X. congruence.
Qed.
Theorem lists_spec : forall A (d : det A), select is_beam (attenuators d) (beamfilters false d) /\ select (fun n => is_beam n \/ n = ATMOSPHERE) (attenuators d) (beamfilters true d)
  /\ select (fun n => ~ is_beam n /\ n <> DETECTOR) (attenuators d) (detectorfilters false d).
Proof.
  intros A d. split; [|split]; [apply (select_filter (fun n => isbeamfilter n false))|apply (select_filter (fun n => isbeamfilter n true))|apply (select_filter (fun n => isdetectorfilter n false))]; intros n; [apply beam_spec|apply beam_true|apply detf_false].
Qed.
Theorem atmosphere_left_out : forall A (d : det A), select (fun n => ~ is_beam n /\ n <> DETECTOR /\ n <> ATMOSPHERE) (attenuators d) (detectorfilters true d).
Proof. intros A d. apply (select_filter (fun n => isdetectorfilter n true)). apply detf_true. Qed.
Theorem atmosphere_witness : forall A (a : A), exists d, around d = Some a /\ detectorfilters true d = [] /\ detectorfilters false d = [a].
Proof. intros A a. exists {| own := []; around := Some a |}. repeat split. Qed.

(* ---- dictionaries ---- *)
Section D.
Context {A : Type}.
Implicit Types (d : det A) (l : list (chars * A)).
Lemma eqb_refl n : chars_eqb n n = true. Proof. now apply chars_eqb_spec. Qed.
Lemma eqb_neq n m : n <> m -> chars_eqb n m = false. Proof. intros H. destruct (chars_eqb n m) eqn:E; [apply chars_eqb_spec in E; congruence|reflexivity]. Qed.
Lemma lookup_assign n a l k : lookup chars_eqb k (assign chars_eqb n a l) = if chars_eqb k n then Some a else lookup chars_eqb k l.
Proof.
  induction l as [|[m b] l IH]; cbn [assign lookup]; [destruct (chars_eqb k n); reflexivity|]. destruct (chars_eqb n m) eqn:E; cbn [lookup].
  - apply chars_eqb_spec in E. subst m. destruct (chars_eqb k n); reflexivity.
  - destruct (chars_eqb k m) eqn:F; [|exact IH]. apply chars_eqb_spec in F. subst m. rewrite eqb_neq; [reflexivity|]. intros ->. now rewrite eqb_refl in E.
Qed.
Lemma assign_new n a l : ~ In n (keys l) -> assign chars_eqb n a l = l ++ [(n, a)].
Proof. induction l as [|[m b] l IH]; intros H; [reflexivity|]. cbn [assign]. cbn in H. rewrite eqb_neq by (intros ->; apply H; now left). rewrite IH by tauto. reflexivity. Qed.
Lemma assign_keys n a l : In n (keys l) -> keys (assign chars_eqb n a l) = keys l.
Proof.
  induction l as [|[m b] l IH]; intros H; [destruct H|]. cbn [assign]. destruct (chars_eqb n m) eqn:E; [reflexivity|]. cbn. f_equal. apply IH. cbn in H. destruct H as [H|H]; [|exact H]. subst m. now rewrite eqb_refl in E.
Qed.
Lemma nodup_snoc {T} (l : list T) x : NoDup l -> ~ In x l -> NoDup (l ++ [x]).
Proof. intros H I. apply NoDup_rev in H. rewrite <- (rev_involutive (l ++ [x])). apply NoDup_rev. rewrite rev_app_distr. cbn. constructor; [|exact H]. now rewrite <- in_rev. Qed.
Lemma assign_nodup n a l : NoDup (keys l) -> NoDup (keys (assign chars_eqb n a l)).
Proof.
  intros H. destruct (in_dec (list_eq_dec ascii_dec) n (keys l)) as [I|I]; [now rewrite assign_keys|]. rewrite assign_new by exact I. unfold keys. rewrite map_app. cbn. now apply nodup_snoc.
Qed.
Lemma refresh_good d : good d -> good (refresh d).
Proof. unfold good, refresh. destruct (around d); [|auto]. cbn. apply assign_nodup. Qed.
Lemma around_refresh d : around (refresh d) = around d.
Proof. unfold refresh. destruct (around d) eqn:E; [reflexivity|exact E]. Qed.
Lemma assign_twice n a l : assign chars_eqb n a (assign chars_eqb n a l) = assign chars_eqb n a l.
Proof. induction l as [|[m b] l IH]; cbn [assign]; [now rewrite eqb_refl|]. destruct (chars_eqb n m) eqn:E; cbn [assign]; rewrite E; [reflexivity|now rewrite IH]. Qed.
Lemma refresh_twice d : refresh (refresh d) = refresh d.
Proof. unfold refresh at 1. rewrite around_refresh. destruct (around d) as [a|] eqn:E; [|unfold refresh; now rewrite E]. unfold refresh. rewrite E. cbn [own]. now rewrite assign_twice. Qed.
Lemma attenuators_refresh d : attenuators (refresh d) = attenuators d.
Proof. unfold attenuators. now rewrite refresh_twice. Qed.
Lemma lookup_attenuators d k : lookup chars_eqb k (attenuators d) = match around d with Some a => if chars_eqb k ATMOSPHERE then Some a else lookup chars_eqb k (own d) | None => lookup chars_eqb k (own d) end.
Proof. unfold attenuators, refresh. destruct (around d); [cbn [own]; apply lookup_assign|reflexivity]. Qed.
Theorem add_lookup : forall d n a k, (n <> ATMOSPHERE \/ around d = None) -> lookup chars_eqb k (attenuators (addattenuator n a d)) = if chars_eqb k n then Some a else lookup chars_eqb k (attenuators d).
Proof.
  intros d n a k H. rewrite !lookup_attenuators. cbn [addattenuator own around]. rewrite lookup_assign. destruct (around d) as [b|]; [|reflexivity]. destruct H as [H|H]; [|discriminate]. destruct (chars_eqb k ATMOSPHERE) eqn:E; [|reflexivity]. apply chars_eqb_spec in E. subst k. rewrite eqb_neq by congruence. reflexivity.
Qed.
Lemma filter_assign_out (f : chars -> bool) n a l : f n = false -> filter (fun e => f (fst e)) (assign chars_eqb n a l) = filter (fun e => f (fst e)) l.
Proof.
  intros H. induction l as [|[m b] l IH]; cbn [assign filter fst]; [now rewrite H|]. destruct (chars_eqb n m) eqn:E; cbn [filter fst].
  - apply chars_eqb_spec in E. subst m. now rewrite H.
  - now rewrite IH.
Qed.
Lemma filter_beam_attenuators d : filter (fun e => isbeamfilter (fst e) false) (attenuators d) = filter (fun e => isbeamfilter (fst e) false) (own d).
Proof. unfold attenuators, refresh. destruct (around d); [|reflexivity]. cbn [own]. apply (filter_assign_out (fun n => isbeamfilter n false)). reflexivity. Qed.
Lemma known_own d n : known d n <-> In n (keys (own d)) \/ (n = ATMOSPHERE /\ around d <> None).
Proof.
  unfold known, attenuators, refresh. destruct (around d) as [a|] eqn:E; [|split; [now left|intros [H|[_ H]]; [exact H|congruence]]]. cbn [own]. destruct (in_dec (list_eq_dec ascii_dec) ATMOSPHERE (keys (own d))) as [I|I].
  - rewrite assign_keys by exact I. split; [now left|]. intros [H|[-> _]]; assumption.
  - rewrite assign_new by exact I. unfold keys. rewrite map_app, in_app_iff. cbn. split.
    + intros [H|[H|[]]]; [now left|]. right. split; [now symmetry|discriminate].
    + intros [H|[-> _]]; [now left|right; now left].
Qed.
Lemma detf_add b d n a : is_beam n -> detectorfilters b (addattenuator n a d) = detectorfilters b d.
Proof.
  intros H. assert (D : isdetectorfilter n b = false) by (unfold isdetectorfilter; apply beam_spec in H; now rewrite H). unfold detectorfilters. f_equal. unfold attenuators, refresh. cbn [addattenuator around own]. destruct (around d) as [c|]; cbn [own]; [|now apply (filter_assign_out (fun n => isdetectorfilter n b))].
  assert (K : forall l, filter (fun e => isdetectorfilter (fst e) b) (assign chars_eqb ATMOSPHERE c (assign chars_eqb n a l)) = filter (fun e => isdetectorfilter (fst e) b) (assign chars_eqb ATMOSPHERE c l)).
  { assert (NA : n <> ATMOSPHERE) by (intros ->; now apply not_beam in H). induction l as [|[m x] l IH]; cbn [assign].
    - rewrite eqb_neq by congruence. cbn [assign filter fst]. rewrite D. reflexivity.
    - destruct (chars_eqb n m) eqn:E; cbn [assign].
      + apply chars_eqb_spec in E. subst m. rewrite eqb_neq by congruence. cbn [filter fst]. rewrite D. reflexivity.
      + destruct (chars_eqb ATMOSPHERE m) eqn:F; cbn [filter fst].
        * now rewrite (filter_assign_out (fun n => isdetectorfilter n b)).
        * now rewrite IH. }
  apply K.
Qed.
Lemma beam_add d n a : is_beam n -> ~ known d n -> beamfilters false (addattenuator n a d) = beamfilters false d ++ [a].
Proof.
  intros H K. unfold beamfilters. rewrite !filter_beam_attenuators. cbn [addattenuator own]. rewrite assign_new by (intros I; apply K, known_own; now left). rewrite filter_app, map_app. cbn [filter fst]. apply beam_spec in H. rewrite H. reflexivity.
Qed.
Lemma beam_add_out d n a : ~ is_beam n -> beamfilters false (addattenuator n a d) = beamfilters false d.
Proof. intros H. unfold beamfilters. rewrite !filter_beam_attenuators. cbn [addattenuator own]. rewrite (filter_assign_out (fun n => isbeamfilter n false)); [reflexivity|]. destruct (isbeamfilter n false) eqn:E; [now apply beam_spec in E|reflexivity]. Qed.
Theorem named_spec : forall d n a, is_beam n -> exists d', addbeamfilter (Some n) a d = Ok d' /\ (~ known d n -> beamfilters false d' = beamfilters false d ++ [a]) /\ (forall b, detectorfilters b d' = detectorfilters b d)
  /\ (forall k, lookup chars_eqb k (attenuators d') = if chars_eqb k n then Some a else lookup chars_eqb k (attenuators d)) /\ (good d -> good d').
Proof.
  intros d n a H. exists (addattenuator n a d). split.
  - unfold addbeamfilter. pose proof H as B. apply beam_spec in B. destruct n; [discriminate|]. now rewrite B.
  - split; [now apply beam_add|]. split; [intros b; now apply detf_add|]. split; [intros k; apply add_lookup; left; intros ->; now apply not_beam in H|]. unfold good. cbn. apply assign_nodup.
Qed.
Theorem refused : forall d n a, (n <> [] -> ~ is_beam n -> addbeamfilter (Some n) a d = Err ValueError) /\ (is_beam n -> adddetectorfilter n a d = Err ValueError).
Proof.
  intros d n a. split.
  - intros N H. destruct n as [|c n]; [congruence|]. unfold addbeamfilter. destruct (isbeamfilter (c :: n) false) eqn:E; [now apply beam_spec in E|reflexivity].
  - intros H. apply beam_spec in H. unfold adddetectorfilter. now rewrite H.
Qed.
Theorem detector_filter : forall d n a, ~ is_beam n -> (n <> ATMOSPHERE \/ around d = None) -> exists d', adddetectorfilter n a d = Ok d' /\ beamfilters false d' = beamfilters false d
  /\ forall k, lookup chars_eqb k (attenuators d') = if chars_eqb k n then Some a else lookup chars_eqb k (attenuators d).
Proof.
  intros d n a H N. exists (addattenuator n a d). split.
  - unfold adddetectorfilter. destruct (isbeamfilter n false) eqn:E; [now apply beam_spec in E|reflexivity].
  - split; [now apply beam_add_out|]. intros k. now apply add_lookup.
Qed.
(* ---- the next name ---- *)
Definition top (l : list (chars * A)) (i : Z) : Z := fold_left (fun i e => match match_beamfilter (fst e) with Some n => Z.max i n | None => i end) l i.
Lemma top_spec l : forall i, i <= top l i /\ (forall n q, In n (keys l) -> beam_name n q -> int_of q <= top l i) /\ (top l i = i \/ exists n q, In n (keys l) /\ beam_name n q /\ int_of q = top l i).
Proof.
  induction l as [|[m b] l IH]; intros i; cbn [top fold_left fst].
  - split; [lia|]. split; [intros n q []|now left].
  - fold (top l (match match_beamfilter m with Some n => Z.max i n | None => i end)). specialize (IH (match match_beamfilter m with Some n => Z.max i n | None => i end)). destruct IH as (I1 & I2 & I3). split; [destruct (match_beamfilter m); lia|]. split.
    + intros n q [E|H] B; [|eauto]. cbn in E. subst m. assert (X : match_beamfilter n = Some (int_of q)) by (apply match_spec; eauto). rewrite X in *. lia.
    + destruct I3 as [I3|(n & q & K & B & E)]; [|right; exists n, q; split; [now right|split; assumption]]. rewrite I3. destruct (match_beamfilter m) as [k|] eqn:X; [|now left]. destruct (Z.max_spec i k) as [[L ->]|[L ->]]; [|now left]. right. apply match_spec in X as (q & B & ->). exists m, q. split; [now left|split; [exact B|reflexivity]].
Qed.
Theorem next_spec : forall d, exists k, nextbeamfilter d = BEAMFILTER ++ dec k /\ 0 <= k /\ (forall n q, known d n -> beam_name n q -> int_of q <= k) /\ (k = 0 \/ exists n q, known d n /\ beam_name n q /\ int_of q = k).
Proof.
  intros d. exists (top (attenuators d) 0). destruct (top_spec (attenuators d) 0) as (I1 & I2 & I3). split; [|split; [exact I1|split; [exact I2|exact I3]]]. unfold nextbeamfilter, str_int. fold (top (attenuators d) 0). destruct (Z.ltb_spec (top (attenuators d) 0) 0); [lia|reflexivity].
Qed.
Lemma next_name k : 0 <= k -> beam_name (BEAMFILTER ++ dec k) (dec k).
Proof.
  intros K. exists BEAMFILTER. split; [reflexivity|]. split; [|split; [now apply dec_nonempty|now apply dec_digits]]. apply lower_same_list; [apply letters_low|reflexivity].
Qed.
Lemma addbeam_none d a k : nextbeamfilter d = BEAMFILTER ++ dec k -> addbeamfilter None a d = Ok (addattenuator (BEAMFILTER ++ dec k) a (refresh d)).
Proof. intros H. unfold addbeamfilter. now rewrite H. Qed.
Theorem overwrite : forall d a k, 0 <= k -> known d (BEAMFILTER ++ dec k) -> (forall n q, known d n -> beam_name n q -> int_of q <= k) ->
  exists d', addbeamfilter None a d = Ok d' /\ keys (attenuators d') = keys (attenuators d) /\ lookup chars_eqb (BEAMFILTER ++ dec k) (attenuators d') = Some a.
Proof.
  intros d a k K I M. destruct (next_spec d) as (j & E & J & B & X). assert (JK : j = k).
  { assert (k <= j) by (rewrite <- (int_of_dec k) by exact K; eapply B; [exact I|now apply next_name]). destruct X as [X|(n & q & N & Q & X)]; [lia|]. specialize (M n q N Q). lia. }
  subst j. rewrite (addbeam_none d a k E). eexists. split; [reflexivity|]. assert (NA : BEAMFILTER ++ dec k <> ATMOSPHERE) by (intros Y; apply (proj2 not_beam); rewrite <- Y; exists (dec k); now apply next_name). split.
  - unfold known in I. rewrite <- attenuators_refresh in I. unfold attenuators at 1. unfold refresh at 1. cbn [addattenuator around own]. rewrite around_refresh. fold (attenuators d). destruct (around d) as [c|] eqn:AR.
    + cbn [own]. assert (IO : In (BEAMFILTER ++ dec k) (keys (attenuators d))) by (now rewrite <- attenuators_refresh). rewrite assign_keys; rewrite assign_keys by exact IO; [reflexivity|]. apply known_own. right. rewrite AR. split; [reflexivity|discriminate].
    + cbn [own addattenuator]. apply assign_keys. now rewrite attenuators_refresh in I.
  - rewrite add_lookup by (now left). now rewrite eqb_refl.
Qed.
Lemma no_beams d : (forall n, known d n -> ~ is_beam n) -> beamfilters false d = [].
Proof.
  intros H. unfold beamfilters. replace (filter _ (attenuators d)) with (@nil (chars * A)); [reflexivity|]. symmetry. unfold known in H. induction (attenuators d) as [|[n a] l IH]; [reflexivity|]. cbn [filter fst]. destruct (isbeamfilter n false) eqn:E.
  - apply beam_spec in E. exfalso. apply (H n); [now left|exact E].
  - apply IH. intros m M. apply H. now right.
Qed.
Lemma next_none d : (forall n, known d n -> ~ is_beam n) -> nextbeamfilter d = BEAMFILTER ++ dec 0.
Proof. intros H. destruct (next_spec d) as (k & E & _ & _ & [-> | (n & q & N & B & _)]); [exact E|]. exfalso. apply (H n N). now exists q. Qed.
Lemma first_zero : is_beam (BEAMFILTER ++ dec 0). Proof. exists (dec 0). apply next_name. lia. Qed.
Lemma known_refresh d n : known (refresh d) n <-> known d n. Proof. unfold known. now rewrite attenuators_refresh. Qed.
Lemma unnamed_first d a : (forall n, known d n -> ~ is_beam n) -> addbeamfilter None a d = Ok (addattenuator (BEAMFILTER ++ dec 0) a (refresh d)) /\ filter (fun e => isbeamfilter (fst e) false) (own (addattenuator (BEAMFILTER ++ dec 0) a (refresh d))) = [(BEAMFILTER ++ dec 0, a)].
Proof.
  intros H. split; [now apply addbeam_none, next_none|]. cbn [addattenuator own]. rewrite assign_new by (intros I; apply (H (BEAMFILTER ++ dec 0)); [apply known_refresh, known_own; now left|apply first_zero]). rewrite filter_app. cbn [filter fst]. rewrite (proj2 (beam_spec _) first_zero).
  replace (filter (fun e => isbeamfilter (fst e) false) (own (refresh d))) with (@nil (chars * A)); [reflexivity|]. pose proof (no_beams (refresh d)) as N. unfold beamfilters in N. rewrite filter_beam_attenuators in N. symmetry. apply map_eq_nil with (f := snd). apply N. intros n K. apply H. now apply known_refresh.
Qed.
Lemma filter_in (f : chars -> bool) n a l : f n = true -> filter (fun e => f (fst e)) (assign chars_eqb n a l) = assign chars_eqb n a (filter (fun e => f (fst e)) l).
Proof.
  intros H. induction l as [|[m b] l IH]; cbn [assign filter fst]; [now rewrite H|]. destruct (chars_eqb n m) eqn:E; cbn [filter fst].
  - apply chars_eqb_spec in E. subst m. rewrite H. cbn [assign]. now rewrite eqb_refl.
  - destruct (f m); [|exact IH]. cbn [assign]. now rewrite E, IH.
Qed.
Lemma unnamed_again d a b : filter (fun e => isbeamfilter (fst e) false) (own d) = [(BEAMFILTER ++ dec 0, a)] -> exists d2, addbeamfilter None b d = Ok d2 /\ filter (fun e => isbeamfilter (fst e) false) (own d2) = [(BEAMFILTER ++ dec 0, b)].
Proof.
  intros F. assert (E : nextbeamfilter d = BEAMFILTER ++ dec 0).
  { destruct (next_spec d) as (k & E & _ & _ & [-> | (n & q & N & B & X)]); [exact E|]. unfold known in N. apply in_map_iff in N as ([m c] & M & I). cbn in M. subst m. assert (I2 : In (n, c) (filter (fun e => isbeamfilter (fst e) false) (attenuators d))) by (apply filter_In; split; [exact I|apply beam_spec; now exists q]). rewrite filter_beam_attenuators, F in I2. destruct I2 as [I2|[]]. assert (n = BEAMFILTER ++ dec 0) by congruence. subst n. rewrite E. do 2 f_equal. rewrite <- X. assert (M1 : match_beamfilter (BEAMFILTER ++ dec 0) = Some (int_of q)) by (apply match_spec; eauto). assert (M2 : match_beamfilter (BEAMFILTER ++ dec 0) = Some 0) by (apply match_spec; exists (dec 0); split; [apply next_name; lia|reflexivity]). congruence. }
  rewrite (addbeam_none d b 0 E). eexists. split; [reflexivity|]. cbn [addattenuator own]. rewrite (filter_in (fun n => isbeamfilter n false)) by (apply beam_spec, first_zero). assert (R : filter (fun e => isbeamfilter (fst e) false) (own (refresh d)) = [(BEAMFILTER ++ dec 0, a)]) by (fold (attenuators d); now rewrite filter_beam_attenuators). rewrite R. cbn [assign]. now rewrite eqb_refl.
Qed.
Theorem unnamed_lost : forall d a b, (forall n, known d n -> ~ is_beam n) -> exists d1 d2, addbeamfilter None a d = Ok d1 /\ addbeamfilter None b d1 = Ok d2 /\ beamfilters false d1 = [a] /\ beamfilters false d2 = [b].
Proof.
  intros d a b H. destruct (unnamed_first d a H) as [E F]. destruct (unnamed_again _ a b F) as (d2 & E2 & F2). eexists _, d2. split; [exact E|]. split; [exact E2|]. unfold beamfilters. rewrite !filter_beam_attenuators, F, F2. split; reflexivity.
Qed.
Theorem cover_lost : forall d m n a b, (forall n, known d n -> ~ is_beam n) -> ~ is_beam m -> ~ is_beam n -> exists d1 d2, addsamplecover m a d = Ok d1 /\ addsamplecover n b d1 = Ok d2 /\ beamfilters false d1 = [a] /\ beamfilters false d2 = [b].
Proof.
  intros d m n a b H M N. assert (H1 : forall k, known (addattenuator m a d) k -> ~ is_beam k).
  { intros k K. apply known_own in K as [K|[-> _]]; [|apply not_beam]. cbn [addattenuator own] in K. destruct (in_dec (list_eq_dec ascii_dec) m (keys (own d))) as [I|I].
    - rewrite assign_keys in K by exact I. apply H, known_own. now left.
    - rewrite assign_new in K by exact I. unfold keys in K. rewrite map_app, in_app_iff in K. destruct K as [K|[<-|[]]]; [|exact M]. apply H, known_own. now left. }
  destruct (unnamed_first _ a H1) as [E F]. unfold addsamplecover.
  assert (F1 : filter (fun e => isbeamfilter (fst e) false) (own (addattenuator n b (addattenuator (BEAMFILTER ++ dec 0) a (refresh (addattenuator m a d))))) = [(BEAMFILTER ++ dec 0, a)]).
  { unfold addattenuator at 1. cbn [own]. rewrite (filter_assign_out (fun n => isbeamfilter n false)); [exact F|]. destruct (isbeamfilter n false) eqn:X; [now apply beam_spec in X|reflexivity]. }
  destruct (unnamed_again _ a b F1) as (d2 & E2 & F2). eexists _, d2. split; [exact E|]. split; [exact E2|]. unfold beamfilters. rewrite !filter_beam_attenuators, F, F2. split; reflexivity.
Qed.
(* ---- removal ---- *)
Lemma remove_lookup n l k : NoDup (keys l) -> lookup chars_eqb k (remove_key chars_eqb n l) = if chars_eqb k n then None else lookup chars_eqb k l.
Proof.
  induction l as [|[m b] l IH]; intros H; [cbn; destruct (chars_eqb k n); reflexivity|]. inversion H as [|? ? N D]; subst. cbn [remove_key]. destruct (chars_eqb n m) eqn:E.
  - apply chars_eqb_spec in E. subst m. cbn [lookup]. destruct (chars_eqb k n) eqn:F; [|reflexivity]. apply chars_eqb_spec in F. subst k. clear - N. induction l as [|[m c] l IH]; [reflexivity|]. cbn. cbn in N. rewrite eqb_neq by (intros ->; tauto). apply IH. tauto.
  - cbn [lookup]. rewrite IH by exact D. destruct (chars_eqb k m) eqn:F; [|reflexivity]. apply chars_eqb_spec in F. subst k. rewrite eqb_neq; [reflexivity|]. intros ->. now rewrite eqb_refl in E.
Qed.
Lemma remove_keys_in n l m : In m (keys (remove_key chars_eqb n l)) -> In m (keys l).
Proof. induction l as [|[k b] l IH]; [auto|]. cbn [remove_key]. destruct (chars_eqb n k); [now right|]. intros [H|H]; [now left|right; now apply IH]. Qed.
Lemma remove_nodup n l : NoDup (keys l) -> NoDup (keys (remove_key chars_eqb n l)).
Proof. induction l as [|[k b] l IH]; intros H; [constructor|]. inversion H as [|? ? N D]; subst. cbn [remove_key]. destruct (chars_eqb n k); [exact D|]. cbn. constructor; [|now apply IH]. intros X. now apply remove_keys_in in X. Qed.
Lemma remove_all names : forall d, good d -> let d' := fold_left (fun d n => removeattenuator n d) names d in good d' /\ around d' = around d /\ forall k, lookup chars_eqb k (own d') = if existsb (chars_eqb k) names then None else lookup chars_eqb k (own d).
Proof.
  induction names as [|n names IH]; intros d G; cbn [fold_left]; [split; [exact G|split; reflexivity]|]. destruct (IH (removeattenuator n d)) as (G' & R & L); [now apply remove_nodup|]. split; [exact G'|]. split; [exact R|]. intros k. rewrite L. cbn [existsb removeattenuator own]. rewrite remove_lookup by exact G. destruct (chars_eqb k n); [destruct (existsb _ _); reflexivity|reflexivity].
Qed.
Lemma named_in (f : chars -> bool) l k : existsb (chars_eqb k) (filter f (keys l)) = (f k && existsb (chars_eqb k) (keys l)).
Proof.
  induction (keys l) as [|n t IH]; cbn [filter existsb]; [now rewrite andb_false_r|]. destruct (f n) eqn:F; cbn [existsb]; rewrite IH; destruct (chars_eqb k n) eqn:E; cbn; try reflexivity; apply chars_eqb_spec in E; subst n; rewrite F; reflexivity.
Qed.
Lemma lookup_none l k : existsb (chars_eqb k) (keys l) = false -> lookup chars_eqb k l = None.
Proof. induction l as [|[n a] l IH]; [reflexivity|]. cbn [keys map existsb lookup fst]. destruct (chars_eqb k n); [discriminate|]. exact IH. Qed.
Lemma removal (f : chars -> bool) d : good d -> let d' := fold_left (fun d n => removeattenuator n d) (filter f (keys (own (refresh d)))) (refresh d) in
  good d' /\ around d' = around d /\ forall k, lookup chars_eqb k (own d') = if f k then None else lookup chars_eqb k (attenuators d).
Proof.
  intros G. destruct (remove_all (filter f (keys (own (refresh d)))) (refresh d) (refresh_good d G)) as (G' & R & L). split; [exact G'|]. split; [now rewrite R, around_refresh|]. intros k. rewrite L, named_in. fold (attenuators d). destruct (f k); [|reflexivity]. destruct (existsb _ _) eqn:E; [reflexivity|]. now apply lookup_none.
Qed.
Theorem remove_beams : forall d, good d -> beamfilters false (removebeamfilters d) = [] /\ forall k, ~ is_beam k -> lookup chars_eqb k (attenuators (removebeamfilters d)) = lookup chars_eqb k (attenuators d).
Proof.
  intros d G. destruct (removal (fun n => isbeamfilter n false) d G) as (G' & R & L). fold (removebeamfilters d) in *. cbv zeta in *. fold (removebeamfilters d) in G', R, L. split.
  - apply no_beams. intros n K B. apply known_own in K as [K|[-> _]]; [|now apply not_beam in B]. specialize (L n). rewrite (proj2 (beam_spec n) B) in L. clear - K L. induction (own (removebeamfilters d)) as [|[m a] l IH]; [destruct K|]. cbn in L. destruct (chars_eqb n m) eqn:E; [discriminate|]. destruct K as [K|K]; [|now apply IH]. cbn in K. subst m. now rewrite eqb_refl in E.
  - intros k K. rewrite lookup_attenuators, R, L. destruct (isbeamfilter k false) eqn:E; [now apply beam_spec in E|]. rewrite lookup_attenuators. destruct (around d); [|reflexivity]. destruct (chars_eqb k ATMOSPHERE); reflexivity.
Qed.
Theorem remove_detector : forall d b, good d -> around d = None -> forall k, lookup chars_eqb k (attenuators (removedetectorfilters b d)) = if isdetectorfilter k b then None else lookup chars_eqb k (attenuators d).
Proof.
  intros d b G N k. destruct (removal (fun n => isdetectorfilter n b) d G) as (G' & R & L). cbv zeta in *. fold (removedetectorfilters b d) in G', R, L. rewrite lookup_attenuators, R, N. apply L.
Qed.
Theorem atmosphere_stays : forall d b a, good d -> (around d = Some a \/ (b = true /\ lookup chars_eqb ATMOSPHERE (attenuators d) = Some a)) -> lookup chars_eqb ATMOSPHERE (attenuators (removedetectorfilters b d)) = Some a.
Proof.
  intros d b a G H. destruct (removal (fun n => isdetectorfilter n b) d G) as (G' & R & L). cbv zeta in *. fold (removedetectorfilters b d) in G', R, L. rewrite lookup_attenuators, R. destruct H as [H|[-> H]]; [rewrite H; now rewrite eqb_refl|]. specialize (L ATMOSPHERE). assert (X : isdetectorfilter ATMOSPHERE true = false) by reflexivity. rewrite X, H in L. destruct (around d) as [c|] eqn:Y; [|exact L]. rewrite eqb_refl. rewrite lookup_attenuators, Y, eqb_refl in H. exact H.
Qed.
End D.
Theorem restored : forall e esc p, exists s, s = setstate (getstate (solid_init e esc p)) /\ solid_eqb s (solid_init e esc p) = true /\ pileup (solid_init e esc p) = Ok (negb (p =? 0)) /\ pileup s = Err AttributeError /\ escape s <> escape (solid_init e esc p).
Proof. intros e esc p. eexists. split; [reflexivity|]. split; [cbn; destruct e; [apply Z.eqb_refl|reflexivity]|]. split; [reflexivity|]. split; [reflexivity|discriminate]. Qed.

Lemma material_spec : forall A (d : det A), good d -> (forall a, material d = Ok a <-> has d DETECTOR a) /\ ((forall a, ~ has d DETECTOR a) <-> material d = Err KeyError) /\ (hasmaterial d = true <-> exists a, has d DETECTOR a).
Proof.
  intros A d G. assert (N : NoDup (keys (attenuators d))) by (exact (refresh_good d G)).
  assert (Q : forall a, has d DETECTOR a <-> lookup chars_eqb DETECTOR (attenuators d) = Some a).
  { intros a. unfold has. split; [apply (BaseProofs.In_lookup chars_eqb chars_eqb_spec); exact N | apply (BaseProofs.lookup_Some_In chars_eqb chars_eqb_spec)]. }
  unfold material, hasmaterial, mem. destruct (lookup chars_eqb DETECTOR (attenuators d)) as [b|].
  - split; [|split].
    + intros a. rewrite Q. split; congruence.
    + split; [intros H; exfalso; apply (H b); apply Q; reflexivity | discriminate].
    + split; [intros _; exists b; apply Q; reflexivity | reflexivity].
  - split; [|split].
    + intros a. rewrite Q. split; discriminate.
    + split; [reflexivity | intros _ a H; apply Q in H; discriminate].
    + split; [discriminate | intros [a H]; apply Q in H; discriminate].
Qed.
