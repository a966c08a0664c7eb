(* The commands that the parser of spec commands accepts, and what it makes of them. *)
From Coq Require Import String QArith Qcanon Permutation.
From Verif Require Import ScanModel ScanSpec TextProofs ScanProofs.
Local Open Scope nat_scope.

(* ---- words ---- *)
Lemma L_motor w : L TMotor w <-> motor w.
Proof. unfold motor. cbn [L]. unfold all. rewrite !Forall_forall. setoid_rewrite is_letter_spec. tauto. Qed.
Lemma L_motornum w : L TMotornum w <-> motornum w.
Proof.
  unfold motornum. cbn [L]. unfold all. rewrite !Forall_forall. unfold is_letter_num. setoid_rewrite orb_true_iff. setoid_rewrite is_letter_spec. tauto.
Qed.
Lemma L_int w : L TInt w -> natural w (int_of w).
Proof. intros [N H]. split; [exact N | split; [exact H | apply value_int_of]]. Qed.
Lemma natural_L w n : natural w n -> L TInt w /\ int_of w = n.
Proof. intros [N [H E]]. rewrite value_int_of in E. split; [split; assumption | exact E]. Qed.
Lemma split_point_none w : digits w -> split_point w = (w, []).
Proof.
  induction 1 as [|c w Hc H IH]; [reflexivity|]. cbn [split_point]. apply digit_not in Hc as [_ [_ Hc]]. rewrite Hc, IH. reflexivity.
Qed.
Lemma split_point_at a b : digits a -> split_point (a ++ ch 46 :: b) = (a, b).
Proof.
  induction 1 as [|c w Hc H IH]; [reflexivity|]. cbn [split_point app]. apply digit_not in Hc as [_ [_ Hc]]. rewrite Hc, IH. reflexivity.
Qed.
Lemma int_of_cat a : forall b, int_of (a ++ b) = (int_of a * 10 ^ Z.of_nat (length b) + int_of b)%Z.
Proof.
  intros b. revert a. induction b as [|c b IH] using rev_ind; intros a.
  - rewrite app_nil_r. cbn [length]. rewrite Z.pow_0_r. cbn. lia.
  - rewrite app_assoc, !int_of_app, IH, app_length. cbn [length]. replace (Z.of_nat (length b + 1)) with (Z.succ (Z.of_nat (length b))) by lia.
    rewrite Z.pow_succ_r by lia. ring.
Qed.
Lemma unsigned_value w x : unsigned w x -> unsigned_of w = x.
Proof.
  intros [d N D | a b A N B]; unfold unsigned_of.
  - rewrite split_point_none by exact D. rewrite app_nil_r. cbn [length]. rewrite value_int_of. change (10 ^ Z.of_nat 0)%Z with 1%Z.
    generalize (int_of d). intros z. change (Qc_of_Z 1) with 1%Qc. generalize (Qc_of_Z z). intros q. field. discriminate.
  - rewrite split_point_at by exact A. rewrite int_of_cat, Qc_of_Z_plus, Qc_of_Z_mult, !value_int_of.
    assert (P : Qc_of_Z (10 ^ Z.of_nat (length b)) <> 0%Qc).
    { intros E. apply (Qc_of_Z_inj _ 0) in E. assert ((0 < 10 ^ Z.of_nat (length b))%Z) by (apply Z.pow_pos_nonneg; lia). lia. }
    revert P. generalize (Qc_of_Z (10 ^ Z.of_nat (length b))). intros q P. generalize (Qc_of_Z (int_of a)) (Qc_of_Z (int_of b)). intros y z.
    field. exact P.
Qed.
Lemma unsigned_head w x : unsigned w x -> exists c r, w = c :: r /\ is_sign c = false.
Proof.
  intros [d N D | a b A N B].
  - destruct d as [|c d]; [congruence|]. inversion D; subst. exists c, d. split; [reflexivity|]. apply digit_not; assumption.
  - destruct a as [|c a]; [exists (ch 46), b; split; reflexivity|]. inversion A; subst. exists c, (a ++ ch 46 :: b).
    split; [reflexivity|]. apply digit_not; assumption.
Qed.
Lemma decimal_value w x : decimal w x -> float_of w = x.
Proof.
  intros [u y H | u y H | u y H].
  - apply unsigned_value in H as E. apply unsigned_head in H as [c [r [-> Hc]]]. cbn [float_of]. rewrite Hc. exact E.
  - cbn [float_of]. change (is_sign (ch 43)) with true. change (ascii_eqb (ch 43) (ch 45)) with false. cbv iota. apply unsigned_value. exact H.
  - cbn [float_of]. change (is_sign (ch 45)) with true. change (ascii_eqb (ch 45) (ch 45)) with true. cbv iota. f_equal. apply unsigned_value. exact H.
Qed.
Lemma is_point_spec c : is_point c = true <-> c = ch 46.
Proof. apply ascii_eqb_spec. Qed.
Lemma is_sign_spec c : is_sign c = true <-> c = ch 43 \/ c = ch 45.
Proof. unfold is_sign. rewrite orb_true_iff, !ascii_eqb_spec. tauto. Qed.
Lemma unsigned_fl w x : unsigned w x -> exists a v, w = a ++ v /\ all digit a /\
  exists p b, v = p ++ b /\ (p = [] \/ exists c, p = [c] /\ is_point c = true) /\ b <> [] /\ all digit b.
Proof.
  intros [d N D | a b A N B].
  - exists [], d. split; [reflexivity | split; [constructor|]]. exists [], d. auto.
  - exists a, (ch 46 :: b). split; [reflexivity | split; [exact A|]]. exists [ch 46], b. split; [reflexivity|]. split; [right; exists (ch 46); split; reflexivity|]. auto.
Qed.
Lemma decimal_L w x : decimal w x -> L TFloat w.
Proof.
  intros [u y H | u y H | u y H]; apply unsigned_fl in H; cbn [L].
  - exists [], u. auto.
  - exists [ch 43], u. split; [reflexivity | split; [right; exists (ch 43); split; reflexivity | exact H]].
  - exists [ch 45], u. split; [reflexivity | split; [right; exists (ch 45); split; reflexivity | exact H]].
Qed.
Lemma L_decimal w : L TFloat w -> decimal w (float_of w).
Proof.
  intros [s [u [-> [Hs [a [v [-> [Ha [p [b [-> [Hp [Nb Hb]]]]]]]]]]]]].
  assert (U : exists x, unsigned (a ++ p ++ b) x).
  { destruct Hp as [-> | [c [-> Hc]]].
    - eexists. apply Whole; [intros E; apply app_eq_nil in E as [_ E]; contradiction | apply Forall_app; auto].
    - apply is_point_spec in Hc as ->. eexists. apply Pointed; assumption. }
  destruct U as [x U]. assert (D : exists y, decimal (s ++ a ++ p ++ b) y).
  { destruct Hs as [-> | [c [-> Hc]]]; [eexists; apply Bare; exact U|]. apply is_sign_spec in Hc as [-> | ->]; eexists; [apply Positive | apply Negative]; exact U. }
  destruct D as [y D]. rewrite (decimal_value _ _ D). exact D.
Qed.

(* ---- layouts ---- *)
Lemma all_blank b : all is_blank b <-> Forall blank b.
Proof. unfold all. rewrite !Forall_forall. setoid_rewrite is_blank_spec. tauto. Qed.
Lemma fits_laid p ws r s : fits p ws r s -> laid ws r s /\ Forall2 (fun e w => L (snd e) w) p ws.
Proof.
  induction 1 as [k t w r Hw | k t p w b ws r s' N Hw Nb Hb H [IH1 IH2]].
  - split; [constructor | constructor; [exact Hw | constructor]].
  - split; [constructor; [exact Nb | apply all_blank; exact Hb | exact IH1] | constructor; assumption].
Qed.
Lemma laid_fits ws r s : laid ws r s -> forall p, Forall2 (fun e w => L (snd e) w) p ws -> fits p ws r s.
Proof.
  induction 1 as [w r | w b ws r t Nb Hb H IH]; intros p F; inversion F as [|[k t'] ? p' ? Hw F']; subst.
  - inversion F'; subst. constructor. exact Hw.
  - constructor; [|exact Hw | exact Nb | apply all_blank; exact Hb | apply IH; exact F'].
    intros ->. inversion F'; subst. inversion H.
Qed.
Lemma ends_stops r : ends r <-> stops r.
Proof. destruct r; [reflexivity|]. symmetry. apply is_blank_spec. Qed.
Lemma first_word_named w r : ~ In (ch 32) w -> first_word (w ++ ch 32 :: r) = w.
Proof.
  induction w as [|c w IH]; intros N; [reflexivity|]. cbn [app first_word]. rewrite ascii_eqb_neq.
  - f_equal. apply IH. intros H. apply N. right. exact H.
  - intros ->. apply N. left. reflexivity.
Qed.
Lemma first_word_spec w b x : b <> [] -> first_word (w ++ b ++ x) = w -> exists r, w ++ b ++ x = w ++ ch 32 :: r.
Proof.
  intros Nb. induction w as [|c w IH]; cbn [app].
  - destruct b as [|c b]; [congruence|]. cbn [app first_word]. destruct (ascii_eqb c (ch 32)) eqn:E; [|discriminate].
    intros _. apply ascii_eqb_spec in E as ->. eexists. reflexivity.
  - cbn [first_word]. destruct (ascii_eqb c (ch 32)); [discriminate|]. intros E. assert (E' : first_word (w ++ b ++ x) = w) by congruence.
    destruct (IH E') as [r ->]. exists r. reflexivity.
Qed.

Lemma same_refl d : same_dict d d.
Proof. intros k. reflexivity. Qed.
Lemma same_perm a b : Permutation a b -> NoDup (map fst a) -> same_dict a b.
Proof.
  intros H. induction H as [|[k v] a b H IH|[k v] [k' v'] a|a b c H1 IH1 H2 IH2]; intros N x.
  - reflexivity.
  - cbn [lookup]. destruct (chars_eqb x k); [reflexivity|]. apply IH. inversion N; assumption.
  - cbn [lookup]. destruct (chars_eqb x k) eqn:E1; destruct (chars_eqb x k') eqn:E2; try reflexivity.
    apply chars_eqb_spec in E1. apply chars_eqb_spec in E2. subst. cbn in N. inversion N as [|? ? Q _]. exfalso. apply Q. left. reflexivity.
  - rewrite (IH1 N x). apply IH2. eapply Permutation_NoDup; [|exact N]. apply Permutation_map. exact H1.
Qed.

(* ---- the patterns ---- *)
Definition checkb (w : chars) : bool := negb (match w with [] => true | _ => false end) && forallb (fun c => negb (is_blank c)) w.
Lemma checkb_solid w : checkb w = true -> solid w.
Proof.
  unfold checkb. rewrite andb_true_iff, negb_true_iff, forallb_forall. intros [N H]. split; [destruct w; [discriminate | congruence]|].
  apply Forall_forall. intros c Hc. apply negb_true_iff, H. exact Hc.
Qed.
Definition checkp (p : pattern) : bool := forallb (fun e => match snd e with TWord v => checkb v | _ => true end) p.
Lemma checkp_solid p : checkp p = true -> words_solid p.
Proof.
  unfold checkp, words_solid. rewrite forallb_forall, Forall_forall. intros H e He v E. specialize (H e He). rewrite E in H. apply checkb_solid. exact H.
Qed.
Lemma no_match p p' ws r s : laid ws r s -> Forall2 (fun e w => L (snd e) w) p ws -> words_solid p -> words_solid p' -> length p = length p' ->
  p' <> [] -> first_match p' s = None \/ exists ws', agree ws ws' /\ Forall2 (fun e w => L (snd e) w) p' ws'.
Proof.
  intros H F W W' Hl N. destruct (first_match p' s) as [g|] eqn:E; [right | left; reflexivity].
  apply first_match_sound in E as [_ [r' Hf]]; [|exact N]. exists (map snd g).
  split; [|apply (fits_laid _ _ _ _ Hf)]. exact (fits_agree p ws r s (laid_fits _ _ _ H _ F) W p' (map snd g) r' W' Hl Hf).
Qed.

Ltac words := repeat match goal with
  | H : motor ?w |- _ => apply L_motor in H
  | H : motornum ?w |- _ => apply L_motornum in H
  | H : natural ?w ?n |- _ => apply natural_L in H as [H <-]
  | H : decimal ?w ?x |- _ => rewrite <- (decimal_value _ _ H) in *; apply decimal_L in H
  end.
Ltac f2 := repeat match goal with |- Forall2 _ _ _ => constructor end; cbn [snd]; try assumption; try reflexivity.

Lemma float_int w : L TInt w -> float_of w = Qc_of_Z (int_of w).
Proof.
  intros [N H]. rewrite <- value_int_of. apply decimal_value. apply Bare, Whole; assumption.
Qed.
Lemma name_matters ws d : says ws d -> exists n, hd_error ws = Some n /\
  In n [txt "zapimage"; txt "puzzle"; txt "mesh"; txt "zapenergy"; txt "zapline"; txt "ascan"].
Proof. intros []; eexists; (split; [reflexivity|]); cbn [In]; tauto. Qed.

Lemma parse_zapimage r : parse (txt "zapimage" ++ ch 32 :: r) = parsezapimage (txt "zapimage" ++ ch 32 :: r).
Proof. unfold parse. rewrite first_word_named by (vm_compute; intuition discriminate). reflexivity. Qed.
Lemma parse_puzzle r : parse (txt "puzzle" ++ ch 32 :: r) = parsepuzzle (txt "puzzle" ++ ch 32 :: r).
Proof. unfold parse. rewrite first_word_named by (vm_compute; intuition discriminate). reflexivity. Qed.
Lemma parse_mesh r : parse (txt "mesh" ++ ch 32 :: r) = parsemesh (txt "mesh" ++ ch 32 :: r).
Proof. unfold parse. rewrite first_word_named by (vm_compute; intuition discriminate). reflexivity. Qed.
Lemma parse_zapenergy r : parse (txt "zapenergy" ++ ch 32 :: r) = parsezapenergy (txt "zapenergy" ++ ch 32 :: r).
Proof. unfold parse. rewrite first_word_named by (vm_compute; intuition discriminate). reflexivity. Qed.
Lemma parse_zapline r : parse (txt "zapline" ++ ch 32 :: r) = parsezapline (txt "zapline" ++ ch 32 :: r).
Proof. unfold parse. rewrite first_word_named by (vm_compute; intuition discriminate). reflexivity. Qed.
Lemma parse_ascan r : parse (txt "ascan" ++ ch 32 :: r) = parseascan (txt "ascan" ++ ch 32 :: r).
Proof. unfold parse. rewrite first_word_named by (vm_compute; intuition discriminate). reflexivity. Qed.

Lemma digits_letters w : L TInt w -> L TMotor w -> False.
Proof.
  intros [N H] [_ H']. destruct w as [|c w]; [congruence|]. inversion H; inversion H'; subst. destruct (digit_not c) as [Q _]; congruence.
Qed.

Theorem parse_complete ws d tail cmd : says ws d -> laid ws tail cmd -> named ws cmd -> ends tail -> same_dict (parse cmd) d.
Proof.
  intros Hs Hl Hn He. apply ends_stops in He.
  destruct Hs as [mf a sf b ef c nf ms d ss e es f ns g t | mf a sf b ef c nf ms d ss e es f ns g t | mf a sf b ef c nf ms d ss e es f ns g t
                 | mf a sf b ef c nf ms d ss e es f ns g t | s c n g t Hs | mf a sf b ef c nf g t | mf a sf b ef c nf g t];
    destruct Hn as [rest ->]; intros; words.
  - rewrite parse_zapimage. unfold parsezapimage, patternzapimage, match_any.
    set (p1 := [_; _; _; _; _; (ktime, TInt); _; _; _; _]). set (p2 := [_; _; _; _; _; (kmotslow, TMotor); _; _; _; _]).
    assert (F : Forall2 (fun e w => L (snd e) w) p2 [txt "zapimage"; mf; a; b; c; ms; d; e; f; g]) by (unfold p2; f2).
    assert (W1 : words_solid p1) by (apply checkp_solid; vm_compute; reflexivity).
    assert (W2 : words_solid p2) by (apply checkp_solid; vm_compute; reflexivity).
    rewrite (first_match_fits p2 _ tail _ (laid_fits _ _ _ Hl _ F) He W2).
    destruct (no_match p2 p1 _ _ _ Hl F W2 W1 eq_refl ltac:(discriminate)) as [-> | [ws' [A F']]].
    + intros k. cbn [p2 map fst combine]. rewrite <- (float_int g) by assumption. reflexivity.
    + exfalso. do 5 (inversion A as [|? ? ? A']; subst; clear A; rename A' into A).
      unfold p1 in F'. do 5 (inversion F' as [|? ? ? ? _ F2]; subst; clear F'; rename F2 into F').
      inversion A as [|? ? ? A']; subst. inversion F' as [|? ? ? ? X F2]; subst. cbn [snd] in X. eapply digits_letters; eassumption.
  - rewrite parse_zapimage. unfold parsezapimage, patternzapimage, match_any.
    set (p1 := [_; _; _; _; _; (ktime, TInt); _; _; _; _]). 
    assert (F : Forall2 (fun e w => L (snd e) w) p1 [txt "zapimage"; mf; a; b; c; g; ms; d; e; f]) by (unfold p1; f2).
    assert (W1 : words_solid p1) by (apply checkp_solid; vm_compute; reflexivity).
    rewrite (first_match_fits p1 _ tail _ (laid_fits _ _ _ Hl _ F) He W1).
    rewrite <- (float_int g) by assumption.
    assert (E : castzapimage (Some (combine (map fst p1) [txt "zapimage"; mf; a; b; c; g; ms; d; e; f])) =
      [(kname, FText (txt "zapimage")); (kmotfast, FText mf); (kstartfast, FNum (float_of a)); (kendfast, FNum (float_of b)); (knpixelsfast, FInt (int_of c))] ++
      (ktime, FMs (float_of g)) :: [(kmotslow, FText ms); (kstartslow, FNum (float_of d)); (kendslow, FNum (float_of e)); (knstepsslow, FInt (int_of f))]) by reflexivity.
    rewrite E. apply same_perm.
    + apply (Permutation_app_head [_; _; _; _; _]). apply Permutation_cons_append.
    + cbn [map app fst]. repeat (constructor; [vm_compute; intuition discriminate|]). constructor.
  - rewrite parse_puzzle. unfold parsepuzzle, patternpuzzle, match_any.
    set (p := [_; _; _; _; _; _; _; _; _; _]).
    assert (F : Forall2 (fun e w => L (snd e) w) p [txt "puzzle"; mf; a; b; c; ms; d; e; f; g]) by (unfold p; f2).
    assert (W : words_solid p) by (apply checkp_solid; vm_compute; reflexivity).
    rewrite (first_match_fits p _ tail _ (laid_fits _ _ _ Hl _ F) He W). rewrite <- (float_int g) by assumption. intros k. reflexivity.
  - rewrite parse_mesh. unfold parsemesh, patternmesh, match_any.
    set (p := [_; _; _; _; _; _; _; _; _; _]).
    assert (F : Forall2 (fun e w => L (snd e) w) p [txt "mesh"; mf; a; b; c; ms; d; e; f; g]) by (unfold p; f2).
    assert (W : words_solid p) by (apply checkp_solid; vm_compute; reflexivity).
    rewrite (first_match_fits p _ tail _ (laid_fits _ _ _ Hl _ F) He W). intros k. reflexivity.
  - rewrite parse_zapenergy. unfold parsezapenergy, patternzapenergy, match_any.
    set (p1 := [(kname, TWord (txt "zapenergy")); ([], TWord (txt "SUM")); (krepeats, TInt); (ktime, TFloat)]).
    set (p2 := [(kname, TWord (txt "zapenergy")); ([], TWord (txt "SUM2")); (krepeats, TInt); (ktime, TFloat)]).
    assert (W1 : words_solid p1) by (apply checkp_solid; vm_compute; reflexivity).
    assert (W2 : words_solid p2) by (apply checkp_solid; vm_compute; reflexivity).
    destruct Hs as [-> | ->].
    + assert (F : Forall2 (fun e w => L (snd e) w) p1 [txt "zapenergy"; txt "SUM"; c; g]) by (unfold p1; f2).
      rewrite (first_match_fits p1 _ tail _ (laid_fits _ _ _ Hl _ F) He W1). intros k. reflexivity.
    + assert (F : Forall2 (fun e w => L (snd e) w) p2 [txt "zapenergy"; txt "SUM2"; c; g]) by (unfold p2; f2).
      rewrite (first_match_fits p2 _ tail _ (laid_fits _ _ _ Hl _ F) He W2).
      destruct (no_match p2 p1 _ _ _ Hl F W2 W1 eq_refl ltac:(discriminate)) as [-> | [ws' [A F']]]; [intros k; reflexivity|].
      exfalso. inversion A as [|? ? ? A']; subst; clear A. inversion A' as [|? ? ? A]; subst.
      unfold p1 in F'. inversion F' as [|? ? ? ? _ F2]; subst. inversion F2 as [|? ? ? ? X _]; subst. cbn [snd L] in X. discriminate X.
  - rewrite parse_zapline. unfold parsezapline, patternzapline, match_any.
    set (p := [_; _; _; _; _; _]).
    assert (F : Forall2 (fun e w => L (snd e) w) p [txt "zapline"; mf; a; b; c; g]) by (unfold p; f2).
    assert (W : words_solid p) by (apply checkp_solid; vm_compute; reflexivity).
    rewrite (first_match_fits p _ tail _ (laid_fits _ _ _ Hl _ F) He W). intros k. reflexivity.
  - rewrite parse_ascan. unfold parseascan, patternascan, match_any.
    set (p := [_; _; _; _; _; _]).
    assert (F : Forall2 (fun e w => L (snd e) w) p [txt "ascan"; mf; a; b; c; g]) by (unfold p; f2).
    assert (W : words_solid p) by (apply checkp_solid; vm_compute; reflexivity).
    rewrite (first_match_fits p _ tail _ (laid_fits _ _ _ Hl _ F) He W). intros k. reflexivity.
Qed.

(* ---- every dictionary comes from a command ---- *)
Lemma match_any_sound ps s g : Forall (fun p => p <> []) ps -> match_any ps s = Some g ->
  exists p r, In p ps /\ g = combine (map fst p) (map snd g) /\ laid (map snd g) r s /\ Forall2 (fun e w => L (snd e) w) p (map snd g).
Proof.
  induction 1 as [|p ps N H IH]; cbn [match_any]; [discriminate|].
  destruct (first_match p s) as [m|] eqn:E.
  - intros Q. apply some_eq in Q as ->. apply first_match_sound in E as [K [r Hf]]; [|exact N]. apply fits_laid in Hf as [Hl F].
    exists p, r. split; [left; reflexivity|]. split; [|auto]. rewrite <- K. clear. induction g as [|[k w] g IH]; [reflexivity|]. cbn. f_equal. exact IH.
  - intros Q. destruct (IH Q) as [p' [r [Hin R]]]. exists p', r. split; [right; exact Hin | exact R].
Qed.
Lemma named_first n ws r cmd : laid (n :: ws) r cmd -> ws <> [] -> first_word cmd = n -> named (n :: ws) cmd.
Proof.
  intros H N E. revert E. inversion H as [w r' Ew Er Ec | w b ws' r' t Nb Hb Hl Ew Er Ec].
  - congruence.
  - intros E. apply first_word_spec; assumption.
Qed.
Ltac unf2 := repeat match goal with
  | F : Forall2 _ (_ :: _) ?l |- _ => inversion F as [|? ? ? ? ? ?]; subst; clear F
  | F : Forall2 _ [] ?l |- _ => inversion F; subst; clear F
  end.
Ltac fix_words := cbn [snd] in *; repeat match goal with H : L (TWord ?v) ?w |- _ => change (w = v) in H; subst w end.
Ltac use := match goal with
  | H : L TMotor ?w |- motor ?w => apply L_motor; exact H
  | H : L TMotornum ?w |- motornum ?w => apply L_motornum; exact H
  | H : L TInt ?w |- natural ?w _ => apply L_int; exact H
  | H : L TFloat ?w |- decimal ?w _ => apply L_decimal; exact H
  end.
Definition read (cmd : chars) (d : dict) : Prop := exists ws tail d', says ws d' /\ laid ws tail cmd /\ named ws cmd /\ same_dict d d'.

Theorem parse_sound cmd : parse cmd = unknown \/ read cmd (parse cmd).
Proof.
  unfold parse.
  destruct (chars_eqb (first_word cmd) (txt "zapimage")) eqn:E1.
  { apply chars_eqb_spec in E1. unfold parsezapimage. destruct (match_any (patternzapimage (txt "zapimage")) cmd) as [g|] eqn:E; [right | left; reflexivity].
    apply match_any_sound in E as [p [r [Hin [Hg [Hl F]]]]]; [|repeat constructor; discriminate]. revert Hg Hl F. generalize (map snd g). intros ws -> Hl F.
    destruct Hin as [<- | [<- | []]]; unf2; fix_words.
    - refine (ex_intro _ _ (ex_intro _ _ (ex_intro _ _ (conj _ (conj Hl (conj _ _)))))); [apply Zapimage_old; use | eapply named_first; eauto; discriminate|].
      match goal with |- same_dict _ (area _ _ _ _ _ _ _ _ _ _ (FMs (Qc_of_Z (int_of ?g)))) => rewrite <- (float_int g) by assumption end.
      cbn [map fst combine].
      match goal with |- same_dict (castzapimage (Some [_; (_, ?mf); (_, ?a); (_, ?b); (_, ?c); (_, ?g); (_, ?ms); (_, ?d); (_, ?e); (_, ?f)])) _ =>
        change (same_dict ([(kname, FText (txt "zapimage")); (kmotfast, FText mf); (kstartfast, FNum (float_of a)); (kendfast, FNum (float_of b)); (knpixelsfast, FInt (int_of c))] ++
      (ktime, FMs (float_of g)) :: [(kmotslow, FText ms); (kstartslow, FNum (float_of d)); (kendslow, FNum (float_of e)); (knstepsslow, FInt (int_of f))])
         (area (txt "zapimage") mf (float_of a) (float_of b) (txt "npixelsfast") (int_of c) ms (float_of d) (float_of e) (int_of f) (FMs (float_of g)))) end.
      apply same_perm.
      + apply (Permutation_app_head [_; _; _; _; _]). apply Permutation_cons_append.
      + cbn [map app fst]. repeat (constructor; [vm_compute; intuition discriminate|]). constructor.
    - refine (ex_intro _ _ (ex_intro _ _ (ex_intro _ _ (conj _ (conj Hl (conj _ _)))))); [apply Zapimage; use | eapply named_first; eauto; discriminate|].
      match goal with |- same_dict _ (area _ _ _ _ _ _ _ _ _ _ (FMs (Qc_of_Z (int_of ?g)))) => rewrite <- (float_int g) by assumption end.
      intros k. reflexivity. }
  destruct (chars_eqb (first_word cmd) (txt "ascan")) eqn:E2.
  { apply chars_eqb_spec in E2. unfold parseascan. destruct (match_any (patternascan (txt "ascan")) cmd) as [g|] eqn:E; [right | left; reflexivity].
    apply match_any_sound in E as [p [r [Hin [Hg [Hl F]]]]]; [|repeat constructor; discriminate]. revert Hg Hl F. generalize (map snd g). intros ws -> Hl F.
    destruct Hin as [<- | []]; unf2; fix_words.
    refine (ex_intro _ _ (ex_intro _ _ (ex_intro _ _ (conj _ (conj Hl (conj _ _)))))); [apply Ascan; use | eapply named_first; eauto; discriminate|]. intros k. reflexivity. }
  destruct (chars_eqb (first_word cmd) (txt "zapline")) eqn:E3.
  { apply chars_eqb_spec in E3. unfold parsezapline. destruct (match_any (patternzapline (txt "zapline")) cmd) as [g|] eqn:E; [right | left; reflexivity].
    apply match_any_sound in E as [p [r [Hin [Hg [Hl F]]]]]; [|repeat constructor; discriminate]. revert Hg Hl F. generalize (map snd g). intros ws -> Hl F.
    destruct Hin as [<- | []]; unf2; fix_words.
    refine (ex_intro _ _ (ex_intro _ _ (ex_intro _ _ (conj _ (conj Hl (conj _ _)))))); [apply Zapline; use | eapply named_first; eauto; discriminate|]. intros k. reflexivity. }
  destruct (chars_eqb (first_word cmd) (txt "zapenergy")) eqn:E4.
  { apply chars_eqb_spec in E4. unfold parsezapenergy. destruct (match_any (patternzapenergy (txt "zapenergy")) cmd) as [g|] eqn:E; [right | left; reflexivity].
    apply match_any_sound in E as [p [r [Hin [Hg [Hl F]]]]]; [|repeat constructor; discriminate]. revert Hg Hl F. generalize (map snd g). intros ws -> Hl F.
    destruct Hin as [<- | [<- | []]]; unf2; fix_words.
    - refine (ex_intro _ _ (ex_intro _ _ (ex_intro _ _ (conj _ (conj Hl (conj _ _)))))); [apply Zapenergy; [left; reflexivity | use | use] | eapply named_first; eauto; discriminate|]. intros k. reflexivity.
    - refine (ex_intro _ _ (ex_intro _ _ (ex_intro _ _ (conj _ (conj Hl (conj _ _)))))); [apply Zapenergy; [right; reflexivity | use | use] | eapply named_first; eauto; discriminate|]. intros k. reflexivity. }
  destruct (chars_eqb (first_word cmd) (txt "mesh")) eqn:E5.
  { apply chars_eqb_spec in E5. unfold parsemesh. destruct (match_any (patternmesh (txt "mesh")) cmd) as [g|] eqn:E; [right | left; reflexivity].
    apply match_any_sound in E as [p [r [Hin [Hg [Hl F]]]]]; [|repeat constructor; discriminate]. revert Hg Hl F. generalize (map snd g). intros ws -> Hl F.
    destruct Hin as [<- | []]; unf2; fix_words.
    refine (ex_intro _ _ (ex_intro _ _ (ex_intro _ _ (conj _ (conj Hl (conj _ _)))))); [apply Mesh; use | eapply named_first; eauto; discriminate|]. intros k. reflexivity. }
  destruct (chars_eqb (first_word cmd) (txt "puzzle")) eqn:E6; [|left; reflexivity].
  { apply chars_eqb_spec in E6. unfold parsepuzzle. destruct (match_any (patternpuzzle (txt "puzzle")) cmd) as [g|] eqn:E; [right | left; reflexivity].
    apply match_any_sound in E as [p [r [Hin [Hg [Hl F]]]]]; [|repeat constructor; discriminate]. revert Hg Hl F. generalize (map snd g). intros ws -> Hl F.
    destruct Hin as [<- | []]; unf2; fix_words.
    refine (ex_intro _ _ (ex_intro _ _ (ex_intro _ _ (conj _ (conj Hl (conj _ _)))))); [apply Puzzle; use | eapply named_first; eauto; discriminate|].
    match goal with |- same_dict _ (area _ _ _ _ _ _ _ _ _ _ (FMs (Qc_of_Z (int_of ?g)))) => rewrite <- (float_int g) by assumption end.
    intros k. reflexivity. }
Qed.

Theorem unambiguous ws ws' d d' tail tail' cmd : says ws d -> laid ws tail cmd -> named ws cmd -> ends tail ->
  says ws' d' -> laid ws' tail' cmd -> named ws' cmd -> ends tail' -> same_dict d d'.
Proof.
  intros H1 H2 H3 H4 H1' H2' H3' H4' k. rewrite <- (parse_complete _ _ _ _ H1 H2 H3 H4 k). apply (parse_complete _ _ _ _ H1' H2' H3' H4').
Qed.
Lemma laid_eq w b ws tail t s : s = w ++ b ++ t -> b <> [] -> Forall blank b -> laid ws tail t -> laid (w :: ws) tail s.
Proof. intros ->. apply Laid_word. Qed.
Ltac lay b := eapply (laid_eq _ b); [cbv; reflexivity | discriminate | repeat constructor; vm_compute; tauto|].
(* a command that is read differently from what its words say *)
Theorem tail_dropped : exists ws cmd, laid ws [] cmd /\ named ws cmd /\
  ws = [txt "zapline"; txt "mono"; txt "7"; txt "7.1"; txt "100"; txt "1e-3"] /\ lookup chars_eqb (txt "time") (parse cmd) = Some (FMs (Qc_of_Z 1)).
Proof.
  exists [txt "zapline"; txt "mono"; txt "7"; txt "7.1"; txt "100"; txt "1e-3"], (txt "zapline mono 7 7.1 100 1e-3").
  split; [|split; [exists (txt "mono 7 7.1 100 1e-3"); reflexivity | split; [reflexivity|]]].
  - do 5 lay [ch 32]. apply (Laid_last (txt "1e-3") []).
  - assert (D : decimal (txt "1") (Qc_of_Z 1)) by (apply (Bare _ _); apply (Whole (txt "1")); [discriminate | repeat constructor]).
    change (lookup chars_eqb (txt "time") (parse (txt "zapline mono 7 7.1 100 1e-3"))) with (Some (FMs (float_of (txt "1")))).
    rewrite (decimal_value _ _ D). reflexivity.
Qed.
Theorem pieces_of_a_second : exists cmd, cmd = txt "zapimage sampy 0 1 10 sampz 0 1 10 0.5" /\ lookup chars_eqb (txt "time") (parse cmd) = Some (FMs (Qc_of_Z 0)).
Proof.
  exists (txt "zapimage sampy 0 1 10 sampz 0 1 10 0.5"). split; [reflexivity|].
  assert (D : decimal (txt "0") (Qc_of_Z 0)) by (apply (Bare _ _); apply (Whole (txt "0")); [discriminate | repeat constructor]).
  change (lookup chars_eqb (txt "time") (parse (txt "zapimage sampy 0 1 10 sampz 0 1 10 0.5"))) with (Some (FMs (float_of (txt "0")))).
  rewrite (decimal_value _ _ D). reflexivity.
Qed.
Theorem not_understood : Forall (fun cmd => parse cmd = [(txt "name", FText (txt "unknown"))])
  [txt "ascan samy -1e-05 1 10 1"; txt "ascan samy1 0 1 10 1"; txt "ascan" ++ ch 9 :: txt "samy 0 1 10 1"; txt "ascan samy 0. 1 10 1"; txt " ascan samy 0 1 10 1"].
Proof. repeat constructor. Qed.
