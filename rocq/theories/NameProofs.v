From Coq Require Import String.
From Verif Require Import NameSpec TextProofs.

Lemma locate_some name pre ds post : last_number name pre ds post ->
  locate_number name = (length pre, (length pre + length ds)%nat, int_of ds, false).
Proof.
  intros H. unfold locate_number. rewrite (last_runs _ _ _ _ H).
  destruct H as (-> & N & _).
  assert (L : (length ds <> 0)%nat) by (destruct ds; [congruence|discriminate]).
  replace (Nat.eqb (length pre) (length pre + length ds)) with false by (symmetry; apply Nat.eqb_neq; lia).
  replace (length pre + length ds - length pre)%nat with (length ds) by lia.
  rewrite skipn_app, skipn_all, Nat.sub_diag. cbn [app skipn].
  rewrite firstn_app, firstn_all, Nat.sub_diag. cbn [firstn]. now rewrite app_nil_r.
Qed.
Lemma locate_none name : no_digits name -> locate_number name = (0%nat, 0%nat, 0, true).
Proof. intros H. unfold locate_number. rewrite no_digits_runs by exact H. reflexivity. Qed.

Lemma firstn_exact {A} (a b : list A) : firstn (length a) (a ++ b) = a.
Proof. rewrite firstn_app, firstn_all, Nat.sub_diag. cbn [firstn]. apply app_nil_r. Qed.
Lemma skipn_exact {A} (a b : list A) : skipn (length a) (a ++ b) = b.
Proof. rewrite skipn_app, skipn_all, Nat.sub_diag. reflexivity. Qed.

Lemma naming_some name pre ds post : last_number name pre ds post ->
  naming_format name = (pre ++ number_field (length ds) ++ post, int_of ds, false).
Proof.
  intros H. unfold naming_format. rewrite (locate_some _ _ _ _ H). destruct H as (-> & _).
  rewrite firstn_exact. replace (length pre + length ds - length pre)%nat with (length ds) by lia.
  rewrite (app_assoc pre ds post), <- app_length, skipn_exact. reflexivity.
Qed.
Lemma naming_none name : no_digits name -> naming_format name = (name ++ txt ".{:d}", 0, true).
Proof. intros H. unfold naming_format. rewrite locate_none by exact H. reflexivity. Qed.

Lemma last_no_braces name pre ds post : last_number name pre ds post -> no_braces name ->
  no_braces pre /\ no_braces post.
Proof. intros (-> & _) H. rewrite !no_braces_app in H. tauto. Qed.
Lemma format_some name pre ds post n : last_number name pre ds post -> no_braces name ->
  pyformat (pre ++ number_field (length ds) ++ post) n = Fmt (pre ++ format_int (length ds) n ++ post).
Proof.
  intros H B. destruct (last_no_braces _ _ _ _ H B) as [B1 B2]. destruct H as (_ & N & _).
  unfold pyformat. rewrite format_literal, format_number, format_tail; try assumption.
  - reflexivity.
  - destruct ds; [congruence|cbn; lia].
Qed.
Lemma format_none name n : no_braces name ->
  pyformat (name ++ txt ".{:d}") n = Fmt (name ++ [ch 46] ++ str_int n).
Proof.
  intros B. unfold pyformat. change (txt ".{:d}") with ([ch 46] ++ txt "{:d}").
  rewrite format_literal by exact B. rewrite format_literal by (repeat constructor; discriminate).
  rewrite <- (app_nil_r (txt "{:d}")), format_plain, format_tail by constructor. cbn [fapp].
  now rewrite app_nil_r.
Qed.

Lemma increment_some name pre ds post n : last_number name pre ds post -> no_braces name ->
  increment name n = Fmt (pre ++ format_int (length ds) (int_of ds + n) ++ post).
Proof. intros H B. unfold increment. rewrite (naming_some _ _ _ _ H). now apply (format_some name). Qed.
Lemma increment_none name n : no_digits name -> no_braces name ->
  increment name n = Fmt (name ++ [ch 46] ++ str_int n).
Proof. intros H B. unfold increment. rewrite naming_none by exact H. now apply format_none. Qed.

Lemma format_int_nonneg w n : 0 <= n -> format_int w n = zpad w (dec n).
Proof. unfold format_int. destruct (Z.ltb_spec n 0); [lia|reflexivity]. Qed.
Lemma str_int_nonneg n : 0 <= n -> str_int n = dec n.
Proof. unfold str_int. destruct (Z.ltb_spec n 0); [lia|reflexivity]. Qed.

Lemma zpad_tight w n : 0 <= n -> (w < length (zpad w (dec n)))%nat -> tight (zpad w (dec n)).
Proof.
  intros H L. rewrite zpad_length in L. rewrite zpad_long by lia. now apply dec_tight.
Qed.
Lemma last_number_replace pre ds post name ds' : last_number name pre ds post ->
  ds' <> [] -> digits ds' -> last_number (pre ++ ds' ++ post) pre ds' post.
Proof. intros (_ & _ & _ & P & E) N D. repeat split; assumption. Qed.
Lemma zpad_nonempty w n : 0 <= n -> zpad w (dec n) <> [].
Proof.
  intros H E. apply (f_equal (@length _)) in E. rewrite zpad_length in E.
  pose proof (dec_nonempty n H). destruct (dec n); [congruence|cbn in E; lia].
Qed.

(* C41 *)
Lemma increment_number name pre ds post n :
  no_braces name -> last_number name pre ds post -> 0 <= value ds + n ->
  exists ds', increment name n = Fmt (pre ++ ds' ++ post) /\
              last_number (pre ++ ds' ++ post) pre ds' post /\
              value ds' = value ds + n /\ (length ds <= length ds')%nat /\
              ((length ds < length ds')%nat -> tight ds').
Proof.
  intros B H P. rewrite value_int_of in P. exists (zpad (length ds) (dec (int_of ds + n))).
  rewrite (increment_some _ _ _ _ _ H B), format_int_nonneg by exact P.
  split; [reflexivity|]. split.
  { apply (last_number_replace pre ds post name); [exact H|now apply zpad_nonempty|].
    now apply zpad_digits, dec_digits. }
  rewrite !value_int_of, int_of_zpad, int_of_dec by exact P. split; [reflexivity|].
  split; [rewrite zpad_length; lia|]. now apply zpad_tight.
Qed.
Lemma increment_unnumbered name n : no_braces name -> no_digits name -> 0 <= n ->
  exists ds, increment name n = Fmt (name ++ [ch 46] ++ ds) /\ digits ds /\ ds <> [] /\
             value ds = n /\ tight ds.
Proof.
  intros B H P. exists (dec n). rewrite increment_none, str_int_nonneg by assumption.
  split; [reflexivity|]. split; [now apply dec_digits|]. split; [now apply dec_nonempty|].
  split; [rewrite value_int_of; now apply int_of_dec|now apply dec_tight].
Qed.
(* the counter becomes negative *)
Lemma increment_below name pre ds post n :
  no_braces name -> last_number name pre ds post -> value ds + n < 0 ->
  exists ds', increment name n = Fmt (pre ++ [ch 45] ++ ds' ++ post) /\ digits ds' /\
              value ds' = - (value ds + n) /\ (length ds <= 1 + length ds')%nat.
Proof.
  intros B H P. rewrite value_int_of in P. exists (zpad (length ds - 1) (dec (- (int_of ds + n)))).
  rewrite (increment_some _ _ _ _ _ H B). unfold format_int.
  destruct (Z.ltb_spec (int_of ds + n) 0); [|lia].
  split; [reflexivity|]. split; [now apply zpad_digits, dec_digits; lia|].
  rewrite !value_int_of, int_of_zpad, int_of_dec by lia. split; [reflexivity|].
  rewrite zpad_length. lia.
Qed.

Lemma increment_compose name m n s : no_braces name -> 0 <= m -> 0 <= n ->
  increment name m = Fmt s -> increment s n = increment name (m + n).
Proof.
  intros B Hm Hn E. destruct (number_cases name) as [H | (pre & ds & post & H)].
  - rewrite increment_none in E by assumption. injection E as <-.
    rewrite str_int_nonneg, (increment_none name), str_int_nonneg by (assumption || lia).
    assert (L : last_number (name ++ [ch 46] ++ dec m) (name ++ [ch 46]) (dec m) []).
    { split; [now rewrite app_nil_r, <- app_assoc|]. split; [now apply dec_nonempty|].
      split; [now apply dec_digits|]. split; [constructor|].
      intros p c F. apply app_inj_tail in F as [_ <-]. reflexivity. }
    rewrite (increment_some _ _ _ _ _ L).
    2:{ apply no_braces_app. split; [exact B|]. apply no_braces_app. split; [repeat constructor; discriminate|].
        now apply digits_no_braces, dec_digits. }
    rewrite int_of_dec, format_int_nonneg, app_nil_r, <- app_assoc by lia. do 3 f_equal.
    apply zpad_long. apply dec_length_le. lia.
  - assert (P0 : 0 <= int_of ds) by (apply int_of_nonneg; apply H).
    rewrite (increment_some _ _ _ _ _ H B), format_int_nonneg in E by lia. injection E as <-.
    rewrite (increment_some name _ _ _ _ H B), format_int_nonneg by lia.
    assert (D : digits (zpad (length ds) (dec (int_of ds + m)))) by (apply zpad_digits, dec_digits; lia).
    assert (L : last_number (pre ++ zpad (length ds) (dec (int_of ds + m)) ++ post) pre
                            (zpad (length ds) (dec (int_of ds + m))) post).
    { apply (last_number_replace pre ds post name); [exact H|apply zpad_nonempty; lia|exact D]. }
    destruct (last_no_braces _ _ _ _ H B) as [B1 B2].
    rewrite (increment_some _ _ _ _ _ L).
    2:{ rewrite !no_braces_app. auto using digits_no_braces. }
    rewrite int_of_zpad, int_of_dec, format_int_nonneg by lia. rewrite Z.add_assoc. do 3 f_equal.
    rewrite zpad_length.
    pose proof (dec_length_le (int_of ds + m) (int_of ds + m + n) ltac:(lia)).
    unfold zpad. do 2 f_equal. lia.
Qed.

(* ---- the regular expression ---- *)
Lemma re_escape_app a b : re_escape (a ++ b) = re_escape a ++ re_escape b.
Proof.
  induction a as [|c a IH]; [reflexivity|]. cbn [app re_escape].
  destruct (is_special c); cbn [app]; now rewrite IH.
Qed.
Lemma digit_not_special c : digit c = true -> is_special c = false.
Proof.
  unfold digit, is_special. intros H. apply andb_prop in H as [A B].
  apply Z.leb_le in A, B. unfold special. cbn [existsb].
  repeat match goal with |- context [Nat.eqb ?a ?b] => destruct (Nat.eqb_spec a b); [lia|] end. reflexivity.
Qed.
Lemma re_escape_digits ds : digits ds -> re_escape ds = ds.
Proof.
  induction ds as [|c ds IH]; intros H; [reflexivity|]. inversion H; subst. cbn [re_escape].
  rewrite digit_not_special by assumption. now rewrite IH.
Qed.
Lemma re_escape_no_digits s : no_digits s -> no_digits (re_escape s).
Proof.
  induction s as [|c s IH]; intros H; [constructor|]. inversion H; subst. cbn [re_escape].
  destruct (is_special c); repeat constructor; try assumption; apply IH; assumption.
Qed.
Lemma re_escape_last p c : exists q, re_escape (p ++ [c]) = q ++ [c].
Proof.
  rewrite re_escape_app. cbn [re_escape]. destruct (is_special c).
  - exists (re_escape p ++ [backslash]). now rewrite <- app_assoc.
  - now exists (re_escape p).
Qed.
Lemma re_escape_number name pre ds post : last_number name pre ds post ->
  last_number (re_escape name) (re_escape pre) ds (re_escape post).
Proof.
  intros (-> & N & D & P & E). rewrite !re_escape_app, (re_escape_digits ds) by exact D.
  repeat split; try assumption; [now apply re_escape_no_digits|].
  intros q c F. destruct pre as [|x p _] using rev_ind; [now destruct q|].
  destruct (re_escape_last p x) as [r G]. rewrite G in F. apply app_inj_tail in F as [_ ->].
  now apply (E p c).
Qed.

Lemma starts_bracket c r : c <> ch 91 -> starts pat_digits (c :: r) = None.
Proof.
  intros H. change pat_digits with (ch 91 :: tl pat_digits). cbn [starts].
  now rewrite ascii_eqb_neq by congruence.
Qed.
Lemma starts_paren c r : c <> ch 40 -> starts pat_optdot (c :: r) = None.
Proof.
  intros H. change pat_optdot with (ch 40 :: tl pat_optdot). cbn [starts].
  now rewrite ascii_eqb_neq by congruence.
Qed.
Definition consi (i : item) (o : option (list item)) : option (list item) :=
  match o with Some l => Some (i :: l) | None => None end.
Lemma not_special_code c n : is_special c = false -> In n special -> nat_of_ascii c <> n.
Proof.
  unfold is_special. intros H I E. apply (Bool.eq_true_false_abs (existsb (Nat.eqb (nat_of_ascii c)) special)); [|exact H].
  apply existsb_exists. exists n. split; [exact I|]. now apply Nat.eqb_eq.
Qed.
Lemma not_special_neq c n : is_special c = false -> In n special -> (n < 256)%nat -> c <> ch n.
Proof.
  intros H I L ->. apply (not_special_code _ n H I). unfold ch. now apply nat_ascii_embedding.
Qed.
Lemma re_parse_escape s : forall n t, (length (re_escape s ++ t) < n)%nat ->
  exists m, (length t < m)%nat /\ (m <= n)%nat /\
  re_parse n (re_escape s ++ t) = fold_right consi (re_parse m t) (map Lit s).
Proof.
  induction s as [|c s IH]; intros n t L; [exists n; cbn in *; auto|].
  cbn [re_escape] in *. destruct (is_special c) eqn:S; cbn [app length] in L.
  - destruct n as [|n]; [lia|]. cbn [app re_parse].
    rewrite starts_bracket, starts_paren by discriminate. rewrite ascii_eqb_refl, S.
    destruct (IH n t) as (m & L1 & L2 & E); [lia|]. rewrite E. exists m. split; [exact L1|]. split; [lia|].
    reflexivity.
  - destruct n as [|n]; [lia|]. cbn [app re_parse].
    assert (In_ : forall k, In k special -> (k < 256)%nat -> c <> ch k)
      by (intros k I K; now apply not_special_neq).
    rewrite starts_bracket by (apply In_; [cbn; tauto|lia]).
    rewrite starts_paren by (apply In_; [cbn; tauto|lia]).
    rewrite (ascii_eqb_neq c backslash) by (apply In_; [cbn; tauto|lia]).
    rewrite (ascii_eqb_neq c (ch 94)) by (apply In_; [cbn; tauto|lia]).
    rewrite (ascii_eqb_neq c (ch 36)) by (apply In_; [cbn; tauto|lia]).
    replace (existsb (Nat.eqb (nat_of_ascii c)) [40; 41; 91; 123; 63; 42; 43; 124; 46]%nat) with false.
    2:{ symmetry. apply not_true_iff_false. intros F. apply existsb_exists in F as (k & I & F).
        apply Nat.eqb_eq in F. apply (not_special_code c k S); [|exact F]. cbn in I |- *. tauto. }
    destruct (IH n t) as (m & L1 & L2 & E); [lia|]. rewrite E. exists m. split; [exact L1|]. split; [lia|].
    reflexivity.
Qed.
Lemma fold_consi l o : fold_right consi o l = match o with Some k => Some (l ++ k) | None => None end.
Proof. induction l as [|i l IH]; cbn; [now destruct o|]. rewrite IH. now destruct o. Qed.

Lemma re_parse_bol n t : re_parse (S n) (txt "^" ++ t) = consi Bol (re_parse n t).
Proof. reflexivity. Qed.
Lemma re_parse_digits n t : re_parse (S n) (txt "[0-9]+" ++ t) = consi Digits (re_parse n t).
Proof. reflexivity. Qed.
Lemma re_parse_optdot n t : re_parse (S n) (txt "(\.[0-9]+)?" ++ t) = consi OptDot (re_parse n t).
Proof. reflexivity. Qed.
Lemma re_parse_eol n : (1 < n)%nat -> re_parse n (txt "$") = Some [Eol].
Proof. destruct n as [|[|n]]; [lia|lia|reflexivity]. Qed.

Lemma compile_some name pre ds post : last_number name pre ds post ->
  re_compile (regex name) = Some (Bol :: map Lit pre ++ [Digits] ++ map Lit post ++ [Eol]).
Proof.
  intros H. unfold re_compile, regex.
  pose proof (re_escape_number _ _ _ _ H) as H'. rewrite (locate_some _ _ _ _ H').
  destruct H' as (E & _). rewrite E at 1 2 3 4.
  rewrite firstn_exact. rewrite <- app_length.
  rewrite (app_assoc (re_escape pre) ds (re_escape post)), (skipn_exact (re_escape pre ++ ds)).
  clear E. rewrite re_parse_bol.
  destruct (re_parse_escape pre
    (length (txt "^" ++ re_escape pre ++ txt "[0-9]+" ++ re_escape post ++ txt "$"))
    (txt "[0-9]+" ++ re_escape post ++ txt "$")) as (m & L1 & _ & E); [rewrite (app_length (txt "^")); cbn [txt length list_ascii_of_string]; lia|].
  rewrite E, fold_consi. destruct m as [|m]; [lia|]. rewrite re_parse_digits.
  destruct (re_parse_escape post m (txt "$")) as (k & K1 & _ & F).
  { rewrite app_length in L1. change (length (txt "[0-9]+")) with 6%nat in L1. lia. }
  rewrite F, fold_consi, re_parse_eol by exact K1. reflexivity.
Qed.
Lemma compile_none name : no_digits name ->
  re_compile (regex name) = Some (Bol :: map Lit name ++ [OptDot; Eol]).
Proof.
  intros H. unfold re_compile, regex. rewrite locate_none by now apply re_escape_no_digits.
  change (txt "(\.[0-9]+)?$") with (txt "(\.[0-9]+)?" ++ txt "$").
  rewrite re_parse_bol.
  destruct (re_parse_escape name (length (txt "^" ++ re_escape name ++ txt "(\.[0-9]+)?" ++ txt "$"))
    (txt "(\.[0-9]+)?" ++ txt "$")) as (m & L1 & _ & E); [rewrite (app_length (txt "^")); cbn [txt length list_ascii_of_string]; lia|].
  rewrite E, fold_consi. destruct m as [|m]; [lia|]. rewrite re_parse_optdot.
  rewrite re_parse_eol by (rewrite app_length in L1; cbn [txt length list_ascii_of_string] in L1; lia). reflexivity.
Qed.

Lemma re_match_flag p : ~ In Bol p -> forall b b' s, re_match b p s = re_match b' p s.
Proof.
  induction p as [|i p IH]; intros N b b' s; [reflexivity|].
  assert (N' : ~ In Bol p) by (intros F; apply N; now right).
  destruct i; cbn [re_match]; try reflexivity.
  - exfalso. apply N. now left.
  - now rewrite (IH N' b b').
  - now rewrite (IH N' b b').
Qed.
Lemma re_match_lits l p : ~ In Bol p -> forall b s,
  re_match b (map Lit l ++ p) s = true <-> exists r, s = l ++ r /\ re_match b p r = true.
Proof.
  intros N. induction l as [|c l IH]; intros b s.
  - cbn. split; [intros H; now exists s|]. now intros (r & -> & H).
  - cbn [map app re_match]. destruct s as [|d s].
    + split; [discriminate|]. now intros (r & F & _).
    + rewrite andb_true_iff, ascii_eqb_spec, IH. split.
      * intros (-> & r & -> & H). exists r. split; [reflexivity|]. now rewrite (re_match_flag p N b false).
      * intros (r & F & H). injection F as -> ->. split; [reflexivity|]. exists r. split; [reflexivity|].
        now rewrite (re_match_flag p N false b).
Qed.
Lemma digits1_spec k s : digits1 k s = true <->
  exists ds r, s = ds ++ r /\ ds <> [] /\ digits ds /\ k r = true.
Proof.
  induction s as [|c s IH]; cbn [digits1].
  - split; [discriminate|]. intros (ds & r & F & N & _). now destruct ds.
  - rewrite andb_true_iff, orb_true_iff, IH. split.
    + intros [D [(ds & r & -> & N & Ds & K) | K]].
      * exists (c :: ds), r. repeat split; try assumption; [discriminate|now constructor].
      * exists [c], s. repeat split; try assumption; [discriminate|now repeat constructor].
    + intros (ds & r & F & N & Ds & K). destruct ds as [|d ds]; [congruence|].
      injection F as -> ->. inversion Ds; subst. split; [assumption|].
      destruct ds as [|e ds]; [now right|left]. exists (e :: ds), r. repeat split; try assumption. discriminate.
Qed.
Lemma at_end_spec s : at_end s = true <-> s = [] \/ s = [newline].
Proof.
  destruct s as [|c [|d s]]; cbn [at_end].
  - tauto.
  - rewrite ascii_eqb_spec. split; [intros ->; now right|]. intros [F|F]; congruence.
  - split; [discriminate|]. intros [F|F]; discriminate F.
Qed.

Lemma not_in_lits l q : ~ In Bol q -> ~ In Bol (map Lit l ++ q).
Proof.
  intros N F. apply in_app_or in F as [F|F]; [|tauto]. apply in_map_iff in F as (x & F & _). discriminate F.
Qed.
(* `$` also matches before a final newline *)
Lemma matches_spec name s :
  matches name s = Some true <-> same_name name s \/ exists t, s = t ++ [newline] /\ same_name name t.
Proof.
  unfold matches. destruct (number_cases name) as [H | (pre & ds & post & H)].
  - rewrite compile_none by exact H. cbn [re_match andb]. 
    assert (N : ~ In Bol [OptDot; Eol]) by (intros [F|[F|[]]]; discriminate F).
    transitivity (exists r, s = name ++ r /\ re_match true [OptDot; Eol] r = true).
    { rewrite <- (re_match_lits _ _ N true s). split; [intros F; now injection F|now intros ->]. }
    assert (R : forall r, re_match true [OptDot; Eol] r = true <->
              (exists e, at_end e = true /\ (r = e \/ exists ds, ds <> [] /\ digits ds /\ r = [ch 46] ++ ds ++ e))).
    { intros r. cbn [re_match]. rewrite andb_true_r, orb_true_iff. split.
      - intros [F|F]; [|exists r; auto].
        destruct r as [|d r]; [discriminate F|]. apply andb_prop in F as [F1 F2].
        apply ascii_eqb_spec in F1 as ->. apply digits1_spec in F2 as (ds & e & -> & Nd & D & F).
        rewrite andb_true_r in F. exists e. split; [exact F|]. right. now exists ds.
      - intros (e & F & [-> | (ds & Nd & D & ->)]); [now right|left].
        cbn [app]. rewrite ascii_eqb_refl. cbn [andb]. apply digits1_spec. exists ds, e.
        repeat split; try assumption. now rewrite andb_true_r. }
    split.
    + intros (r & -> & F). apply R in F as (e & Ee & F). apply at_end_spec in Ee.
      assert (G : exists t, name ++ r = t ++ e /\ same_name name t).
      { destruct F as [-> | (ds & Nd & D & ->)].
        - exists name. split; [reflexivity|]. now left.
        - exists (name ++ [ch 46] ++ ds). split; [now rewrite <- !app_assoc|].
          right. left. split; [exact H|]. now exists ds. }
      destruct G as (t & -> & G). destruct Ee as [-> | ->]; [left; now rewrite app_nil_r|right; now exists t].
    + assert (G : forall t e, same_name name t -> at_end e = true ->
        exists r, t ++ e = name ++ r /\ re_match true [OptDot; Eol] r = true).
      { intros t e [[_ ->] | [(_ & ds & Nd & D & ->) | (pre & ds & post & ds' & F & _)]] Ee.
        - exists e. split; [reflexivity|]. apply R. exists e. auto.
        - exists ([ch 46] ++ ds ++ e). split; [now rewrite <- !app_assoc|]. apply R. exists e. split; [exact Ee|].
          right. now exists ds.
        - exfalso. now apply (last_number_some _ _ _ _ F). }
      intros [F | (t & -> & F)].
      * rewrite <- (app_nil_r s). now apply G.
      * now apply G.
  - rewrite (compile_some _ _ _ _ H). cbn [re_match andb].
    assert (N1 : ~ In Bol (map Lit post ++ [Eol])).
    { apply not_in_lits. intros [F|[]]; discriminate F. }
    assert (N : ~ In Bol ([Digits] ++ map Lit post ++ [Eol])).
    { intros [F|F]; [discriminate F|tauto]. }
    transitivity (exists r, s = pre ++ r /\ re_match true ([Digits] ++ map Lit post ++ [Eol]) r = true).
    { rewrite <- (re_match_lits _ _ N true s). split; [intros F; now injection F|now intros ->]. }
    assert (R : forall r, re_match true ([Digits] ++ map Lit post ++ [Eol]) r = true <->
              (exists ds' e, r = ds' ++ post ++ e /\ ds' <> [] /\ digits ds' /\ at_end e = true)).
    { intros r. cbn [app re_match]. rewrite digits1_spec.
      assert (NE : ~ In Bol [Eol]) by (intros [F|[]]; discriminate F).
      split.
      - intros (ds' & q & -> & Nd & D & F). apply (re_match_lits _ _ NE) in F as (e & -> & F).
        cbn [re_match] in F. rewrite andb_true_r in F. now exists ds', e.
      - intros (ds' & e & -> & Nd & D & F). exists ds', (post ++ e). repeat split; try assumption.
        apply (re_match_lits _ _ NE). exists e. split; [reflexivity|]. cbn [re_match]. now rewrite F. }
    split.
    + intros (r & -> & F). apply R in F as (ds' & e & -> & Nd & D & F).
      assert (G : same_name name (pre ++ ds' ++ post)).
      { right. right. now exists pre, ds, post, ds'. }
      apply at_end_spec in F as [-> | ->].
      * left. now rewrite app_nil_r.
      * right. exists (pre ++ ds' ++ post). split; [now rewrite <- !app_assoc|exact G].
    + assert (G : forall t e, same_name name t -> at_end e = true ->
        exists r, t ++ e = pre ++ r /\ re_match true ([Digits] ++ map Lit post ++ [Eol]) r = true).
      { intros t e [[F _] | [(F & _) | (pre' & ds0 & post' & ds' & F & Nd & D & ->)]] Ee.
        - exfalso. now apply (last_number_some _ _ _ _ H).
        - exfalso. now apply (last_number_some _ _ _ _ H).
        - destruct (last_number_fun _ _ _ _ _ _ _ H F) as (<- & _ & <-).
          exists (ds' ++ post ++ e). split; [now rewrite <- !app_assoc|]. apply R. now exists ds', e. }
      intros [F | (t & -> & F)].
      * rewrite <- (app_nil_r s). now apply G.
      * now apply G.
Qed.
Lemma matches_total name s : exists b, matches name s = Some b.
Proof.
  unfold matches. destruct (number_cases name) as [H | (pre & ds & post & H)].
  - rewrite compile_none by exact H. eexists. reflexivity.
  - rewrite (compile_some _ _ _ _ H). eexists. reflexivity.
Qed.

Lemma increment_matches name n s : no_braces name ->
  (forall pre ds post, last_number name pre ds post -> 0 <= value ds + n) ->
  (no_digits name -> 0 <= n) ->
  increment name n = Fmt s -> matches name s = Some true.
Proof.
  intros B H1 H2 E. apply matches_spec. left.
  destruct (number_cases name) as [H | (pre & ds & post & H)].
  - destruct (increment_unnumbered name n B H (H2 H)) as (ds & F & D & N & _).
    rewrite F in E. injection E as <-. right. left. split; [exact H|]. now exists ds.
  - destruct (increment_number name pre ds post n B H (H1 _ _ _ H)) as (ds' & F & L & _).
    rewrite F in E. injection E as <-. right. right. exists pre, ds, post, ds'.
    destruct L as (_ & N & D & _). now repeat split; try apply H.
Qed.

(* ---- searching a free name ---- *)
Lemma new_Name_str name n : no_braces name -> n_fmt n = n_fmt (new_Name name) ->
  (forall k, 0 <= k -> exists s, pyformat (n_fmt n) (n_org (new_Name name) + k) = Fmt s /\ nth_name name k s).
Proof.
  intros B E k Hk. rewrite E. unfold new_Name.
  destruct (number_cases name) as [H | (pre & ds & post & H)].
  - rewrite naming_none by exact H. cbn [n_fmt n_org]. rewrite format_none by exact B.
    eexists. split; [reflexivity|]. left. split; [exact H|]. exists (dec (1 + k)).
    rewrite str_int_nonneg by lia. split; [reflexivity|]. split; [apply dec_digits; lia|].
    split; [apply dec_tight; lia|]. split; [apply dec_nonempty; lia|].
    rewrite value_int_of. apply int_of_dec. lia.
  - rewrite (naming_some _ _ _ _ H). cbn [n_fmt n_org]. rewrite (format_some name) by assumption.
    assert (P0 : 0 <= int_of ds) by (apply int_of_nonneg; apply H).
    eexists. split; [reflexivity|]. right. exists pre, ds, post, (zpad (length ds) (dec (int_of ds + k))).
    split; [exact H|]. rewrite format_int_nonneg by lia. split; [reflexivity|].
    split; [apply zpad_digits, dec_digits; lia|].
    rewrite !value_int_of, int_of_zpad, int_of_dec by lia. split; [reflexivity|].
    split; [rewrite zpad_length; lia|apply zpad_tight; lia].
Qed.
Lemma nth_name_inj name j k s : nth_name name j s -> nth_name name k s -> j = k.
Proof.
  intros [(H & ds & -> & D & _ & _ & V) | (pre & ds0 & post & ds & L & -> & D & V & _)]
         [(H' & ds' & E & D' & _ & _ & V') | (pre' & ds0' & post' & ds' & L' & E & D' & V' & _)].
  - apply app_inv_head in E. apply app_inv_head in E. subst. lia.
  - exfalso. now apply (last_number_some _ _ _ _ L').
  - exfalso. now apply (last_number_some _ _ _ _ L).
  - destruct (last_number_fun _ _ _ _ _ _ _ L L') as (<- & <- & <-).
    apply app_inv_head in E. apply app_inv_tail in E. subst. lia.
Qed.

Lemma digits_eq a : forall b, digits a -> digits b -> length a = length b -> int_of a = int_of b -> a = b.
Proof.
  induction a as [|c a IH] using rev_ind; intros b Da Db L E.
  - now destruct b.
  - destruct b as [|d b _] using rev_ind; [rewrite app_length in L; cbn in L; lia|].
    rewrite !int_of_app in E. rewrite !app_length in L. cbn in L.
    apply Forall_app in Da as [Da Dc]. apply Forall_app in Db as [Db Dd].
    inversion Dc as [|? ? Hc _]; inversion Dd as [|? ? Hd _]; subst.
    pose proof (digit_val_range c Hc). pose proof (digit_val_range d Hd).
    assert (V : digit_val c = digit_val d) by lia.
    f_equal.
    + apply IH; try assumption; lia.
    + f_equal. rewrite <- (ascii_nat_embedding c), <- (ascii_nat_embedding d). f_equal.
      unfold digit_val in V. lia.
Qed.
Lemma padded_eq w a b : digits a -> digits b -> int_of a = int_of b -> (0 < w)%nat ->
  (w <= length a)%nat -> (w <= length b)%nat ->
  ((w < length a)%nat -> tight a) -> ((w < length b)%nat -> tight b) -> a = b.
Proof.
  intros Da Db E W La Lb Ta Tb.
  assert (G : forall x y, digits x -> digits y -> int_of x = int_of y -> (w <= length x)%nat ->
              ((w < length y)%nat -> tight y) -> (length x < length y)%nat -> False).
  { intros x y Dx Dy Exy Lx Ty L.
    assert (F : y = zpad (length y) x).
    { apply digits_eq; [assumption|now apply zpad_digits| |now rewrite int_of_zpad].
      rewrite zpad_length. lia. }
    unfold zpad in F. replace (length y - length x)%nat with (S (length y - length x - 1)) in F by lia.
    cbn [repeat app] in F.
    destruct (repeat (ch 48) (length y - length x - 1) ++ x) as [|d r] eqn:R.
    - apply (f_equal (@length _)) in R. rewrite app_length in R. cbn in R. lia.
    - apply (Ty ltac:(lia) _ _ _ F). reflexivity. }
  destruct (Nat.lt_trichotomy (length a) (length b)) as [L|[L|L]].
  - exfalso. now apply (G a b).
  - now apply digits_eq.
  - exfalso. now apply (G b a).
Qed.
Lemma nth_name_fun name k s t : nth_name name k s -> nth_name name k t -> s = t.
Proof.
  intros [(H & ds & -> & D & T & N & V) | (pre & ds0 & post & ds & L & -> & D & V & W & T)]
         [(H' & ds' & -> & D' & T' & N' & V') | (pre' & ds0' & post' & ds' & L' & -> & D' & V' & W' & T')].
  - do 2 f_equal. rewrite value_int_of in V, V'.
    rewrite <- (dec_int_of ds), <- (dec_int_of ds') by assumption. now rewrite V, V'.
  - exfalso. now apply (last_number_some _ _ _ _ L').
  - exfalso. now apply (last_number_some _ _ _ _ L).
  - destruct (last_number_fun _ _ _ _ _ _ _ L L') as (<- & <- & <-). do 2 f_equal.
    apply (padded_eq (length ds0)); try assumption.
    + rewrite <- !value_int_of. lia.
    + destruct L as (_ & N & _). destruct ds0; [congruence|cbn; lia].
Qed.

(* pigeon hole on the names of a sequence *)
Lemma sequence_leaves (f : nat -> chars) (l : list chars) : 
  (forall i j, f i = f j -> i = j) -> (forall i, (i < S (length l))%nat -> In (f i) l) -> False.
Proof.
  intros I H.
  assert (N : NoDup (map f (seq 0 (S (length l))))).
  { apply FinFun.Injective_map_NoDup; [exact I|apply seq_NoDup]. }
  pose proof (NoDup_incl_length N (l' := l)) as L. rewrite map_length, seq_length in L.
  apply Nat.lt_irrefl with (length l). apply L. intros x Hx. apply in_map_iff in Hx as (i & <- & Hi).
  apply in_seq in Hi. apply H. lia.
Qed.
Definition index_name (name : chars) (k : Z) : chars :=
  match pyformat (n_fmt (new_Name name)) (n_org (new_Name name) + k) with Fmt s => s | _ => [] end.
Lemma index_name_ok name k : no_braces name -> 0 <= k ->
  pyformat (n_fmt (new_Name name)) (n_org (new_Name name) + k) = Fmt (index_name name k) /\
  nth_name name k (index_name name k).
Proof.
  intros B H. unfold index_name.
  destruct (new_Name_str name (new_Name name) B eq_refl k H) as (s & -> & G). auto.
Qed.

(* the first name of the sequence *)
Lemma nth_name_0 name s : nth_name name 0 s ->
  (no_digits name -> s = name ++ [ch 46] ++ [ch 49]) /\ (~ no_digits name -> s = name).
Proof.
  intros [(H & ds & -> & D & T & N & V) | (pre & ds0 & post & ds & L & -> & D & V & W & T)].
  - split; [intros _|tauto]. do 2 f_equal. rewrite <- (dec_int_of ds) by assumption.
    rewrite value_int_of in V. rewrite V. reflexivity.
  - split; [intros H; exfalso; now apply (last_number_some _ _ _ _ L)|].
    intros _. destruct L as (-> & N & D0 & P & E). do 2 f_equal.
    apply (padded_eq (length ds0)); try assumption; try lia.
    + rewrite <- !value_int_of. lia.
    + destruct ds0; [congruence|cbn; lia].
Qed.

Lemma format_paren base i : no_braces base -> 0 <= i ->
  pyformat (base ++ txt "({})") i = Fmt (base ++ [ch 40] ++ dec i ++ [ch 41]).
Proof.
  intros B H. unfold pyformat. rewrite format_literal by exact B.
  rewrite <- (app_nil_r (txt "({})")), format_empty, format_tail by (repeat constructor; discriminate).
  cbn [fapp]. rewrite format_int_nonneg, zpad_long by lia. now rewrite <- app_assoc.
Qed.
Section Search.
Context (ex : chars -> bool).
Lemma first_free_run name : no_braces name -> forall fuel n k, 0 <= k ->
  n_fmt n = n_fmt (new_Name name) -> n_num n = n_org (new_Name name) + k -> n_locked n = false ->
  (exists m j, first_free ex fuel n = Some (Ok m) /\ k <= j /\ j < k + Z.of_nat fuel /\
     name_str m = Fmt (index_name name j) /\ ex (index_name name j) = false /\
     (forall i, k <= i < j -> ex (index_name name i) = true)) \/
  (first_free ex fuel n = None /\
     (forall i, k <= i < k + Z.of_nat fuel -> ex (index_name name i) = true)).
Proof.
  intros B. induction fuel as [|fuel IH]; intros n k Hk E1 E2 E3.
  - right. split; [reflexivity|]. intros i Hi. cbn in Hi. lia.
  - destruct (index_name_ok name k B Hk) as [F G].
    assert (S0 : name_str n = Fmt (index_name name k)) by (unfold name_str; rewrite E1, E2; exact F).
    cbn [first_free]. rewrite S0.
    destruct (ex (index_name name k)) eqn:X.
    + assert (A : name_iadd n 1 = mkName (n_fmt n) (n_num n + 1) (n_org n) false)
        by (unfold name_iadd; now rewrite E3).
      destruct (IH (name_iadd n 1) (k + 1)) as [(m & j & I1 & I2 & I3 & I4 & I5 & I6) | [I1 I2]];
        [lia|rewrite A; exact E1|rewrite A; cbn [n_num]; lia|rewrite A; reflexivity| |].
      * left. exists m, j. repeat split; try assumption; try lia.
        intros i Hi. destruct (Z.eq_dec i k) as [->|]; [exact X|]. apply I6. lia.
      * right. split; [exact I1|]. intros i Hi.
        destruct (Z.eq_dec i k) as [->|]; [exact X|]. apply I2. lia.
    + left. exists n, k. repeat split; try assumption; try lia.
Qed.

Lemma not_all_exist name l : no_braces name -> finite ex l ->
  ~ (forall i, 0 <= i < Z.of_nat (S (length l)) -> ex (index_name name i) = true).
Proof.
  intros B F H. apply (sequence_leaves (fun i => index_name name (Z.of_nat i)) l).
  - intros i j E. destruct (index_name_ok name (Z.of_nat i) B ltac:(lia)) as [_ G].
    destruct (index_name_ok name (Z.of_nat j) B ltac:(lia)) as [_ G']. rewrite E in G.
    pose proof (nth_name_inj _ _ _ _ G G'). lia.
  - intros i Hi. apply F, H. lia.
Qed.

Lemma first_free_ok name l fuel : no_braces name -> finite ex l -> (length l < fuel)%nat ->
  exists m k s, first_free ex fuel (new_Name name) = Some (Ok m) /\ name_str m = Fmt s /\
    0 <= k <= Z.of_nat (length l) /\ nth_name name k s /\ ex s = false /\
    (forall i u, 0 <= i < k -> nth_name name i u -> ex u = true).
Proof.
  intros B F L.
  assert (U : n_locked (new_Name name) = false /\ n_num (new_Name name) = n_org (new_Name name) + 0).
  { unfold new_Name. destruct (naming_format name) as [[a b] c]. cbn. split; [reflexivity|lia]. }
  destruct U as [U1 U2].
  destruct (first_free_run name B fuel (new_Name name) 0 ltac:(lia) eq_refl U2 U1)
    as [(m & j & I1 & I2 & I3 & I4 & I5 & I6) | [I1 I2]].
  - destruct (index_name_ok name j B ltac:(lia)) as [_ G].
    exists m, j, (index_name name j). repeat split; try assumption.
    + destruct (Z_le_gt_dec j (Z.of_nat (length l))); [assumption|exfalso].
      apply (not_all_exist name l B F). intros i Hi. apply I6. lia.
    + intros i u Hi Hu. destruct (index_name_ok name i B ltac:(lia)) as [_ G'].
      rewrite (nth_name_fun _ _ _ _ Hu G'). now apply I6.
  - exfalso. apply (not_all_exist name l B F). intros i Hi. apply I2. lia.
Qed.

Lemma next_entry_ok e l fuel : no_braces e -> finite ex l -> (length l < fuel)%nat ->
  exists k s, next_nxentry_name ex fuel (Some e) = Some (Ok s) /\ nth_name e k s /\ ex s = false /\
    0 <= k <= Z.of_nat (length l) /\ (forall i u, 0 <= i < k -> nth_name e i u -> ex u = true).
Proof.
  intros B F L. destruct (first_free_ok e l fuel B F L) as (m & k & s & I1 & I2 & I3 & I4 & I5 & I6).
  exists k, s. unfold next_nxentry_name. rewrite I1, I2. auto 6.
Qed.

(* io/fs.py nonexisting_name *)
Lemma first_index_run base : no_braces base -> forall fuel i, 0 <= i ->
  let nm j := base ++ [ch 40] ++ dec j ++ [ch 41] in
  (exists j, first_index ex fuel (base ++ txt "({})") i = Some (Ok (nm j)) /\ i <= j /\ j < i + Z.of_nat fuel /\
     ex (nm j) = false /\ (forall k, i <= k < j -> ex (nm k) = true)) \/
  (first_index ex fuel (base ++ txt "({})") i = None /\
     forall k, i <= k < i + Z.of_nat fuel -> ex (nm k) = true).
Proof.
  intros B. induction fuel as [|fuel IH]; intros i Hi nm.
  - right. split; [reflexivity|]. cbn. lia.
  - cbn [first_index]. rewrite format_paren by assumption.
    change (base ++ [ch 40] ++ dec i ++ [ch 41]) with (nm i).
    destruct (ex (nm i)) eqn:X.
    + destruct (IH (i + 1) ltac:(lia)) as [(j & I1 & I2 & I3 & I4 & I5) | [I1 I2]].
      * left. exists j. repeat split; try assumption; try lia.
        intros k Hk. destruct (Z.eq_dec k i) as [->|]; [exact X|]. apply I5. lia.
      * right. split; [exact I1|]. intros k Hk. destruct (Z.eq_dec k i) as [->|]; [exact X|]. apply I2. lia.
    + left. exists i. repeat split; try assumption; lia.
Qed.
Lemma first_index_ok base l fuel i : no_braces base -> finite ex l -> (length l < fuel)%nat -> 0 <= i ->
  let nm j := base ++ [ch 40] ++ dec j ++ [ch 41] in
  exists j, first_index ex fuel (base ++ txt "({})") i = Some (Ok (nm j)) /\ i <= j <= i + Z.of_nat (length l) /\
     ex (nm j) = false /\ (forall k, i <= k < j -> ex (nm k) = true).
Proof.
  intros B F L Hi nm.
  assert (P : ~ (forall k, i <= k < i + Z.of_nat (S (length l)) -> ex (nm k) = true)).
  { intros H. apply (sequence_leaves (fun j => nm (i + Z.of_nat j)) l).
    - intros a b E. unfold nm in E. apply app_inv_head in E. apply app_inv_head in E. apply app_inv_tail in E.
      apply dec_inj in E; lia.
    - intros j Hj. apply F, H. lia. }
  destruct (first_index_run base B fuel i Hi) as [(j & I1 & I2 & I3 & I4 & I5) | [I1 I2]].
  - exists j. repeat split; try assumption.
    destruct (Z_le_gt_dec j (i + Z.of_nat (length l))); [assumption|exfalso].
    apply P. intros k Hk. apply I5. lia.
  - exfalso. apply P. intros k Hk. apply I2. lia.
Qed.
End Search.

Lemma span_digits_ok s a r : span_digits s = (a, r) ->
  s = a ++ r /\ digits a /\ (forall c r', r = c :: r' -> digit c = false).
Proof.
  revert a r. induction s as [|c s IH]; intros a r E; cbn [span_digits] in E.
  - injection E as <- <-. repeat split; [constructor|discriminate].
  - destruct (digit c) eqn:D.
    + destruct (span_digits s) as [a' r'] eqn:S. injection E as <- <-.
      destruct (IH _ _ eq_refl) as (-> & D' & N). repeat split; [now constructor|exact N].
    + injection E as <- <-. repeat split; [constructor|]. intros x y F. now injection F as <- _.
Qed.
Lemma span_digits_app a r : digits a -> (forall c r', r = c :: r' -> digit c = false) ->
  span_digits (a ++ r) = (a, r).
Proof.
  induction a as [|c a IH]; intros D N.
  - destruct r as [|c r]; [reflexivity|]. cbn. now rewrite (N c r).
  - inversion D; subst. cbn. rewrite H1, IH by assumption. reflexivity.
Qed.

Lemma split_counter_ok name base ds : split_counter name = Some (base, ds) <-> counted name base ds.
Proof.
  split.
  - unfold split_counter. intros H.
    assert (E : exists t, name = rev (rstrip1 (rev name)) ++ t /\ (t = [] \/ t = [newline])).
    { enough (E : exists t, rev (rev name) = rev (rstrip1 (rev name)) ++ t /\ (t = [] \/ t = [newline]))
        by (rewrite rev_involutive in E; exact E).
      clear H. destruct (rev name) as [|c r]; cbn [rstrip1]; [exists []; auto|].
      destruct (ascii_eqb c newline) eqn:C; [|exists []; rewrite app_nil_r; auto].
      apply ascii_eqb_spec in C as ->. exists [newline]. auto. }
    destruct E as (t & E & T). destruct (rstrip1 (rev name)) as [|c r]; [discriminate H|].
    destruct (ascii_eqb c (ch 41)) eqn:C; [|discriminate H]. apply ascii_eqb_spec in C as ->.
    destruct (span_digits r) as [ds' r'] eqn:S. destruct (span_digits_ok _ _ _ S) as (-> & D & _).
    destruct ds' as [|x ds']; [discriminate H|]. destruct r' as [|d [|y base']]; try discriminate H.
    destruct (ascii_eqb d (ch 40)) eqn:Dd; [|discriminate H]. apply ascii_eqb_spec in Dd as ->.
    destruct (existsb (ascii_eqb newline) (y :: base')) eqn:N; [discriminate H|]. cbn [andb negb] in H.
    assert (B : base = rev (y :: base') /\ ds = rev (x :: ds')) by now split; congruence.
    destruct B as [-> ->]. clear H.
    cbn [rev] in E. rewrite rev_app_distr in E. cbn [rev] in E.
    assert (E' : name = rev (y :: base') ++ [ch 40] ++ rev (x :: ds') ++ [ch 41] ++ t).
    { rewrite E. cbn [rev]. rewrite <- !app_assoc. reflexivity. }
    split; [|repeat split].
    + destruct T as [-> | ->]; [left; rewrite app_nil_r in E'; exact E'|right; exact E'].
    + intros F. apply (f_equal (@length _)) in F. rewrite rev_length in F. discriminate F.
    + intros F. apply in_rev in F. apply not_true_iff_false in N. apply N. apply existsb_exists.
      exists newline. split; [exact F|apply ascii_eqb_refl].
    + intros F. apply (f_equal (@length _)) in F. rewrite rev_length in F. discriminate F.
    + apply Forall_rev. exact D.
  - intros (E & Nb & Nn & Nd & D). unfold split_counter.
    assert (R : rstrip1 (rev name) = ch 41 :: rev ds ++ ch 40 :: rev base).
    { destruct E as [-> | ->]; rewrite !rev_app_distr; cbn; rewrite <- !app_assoc; reflexivity. }
    rewrite R. change (ascii_eqb (ch 41) (ch 41)) with true. cbv iota.
    rewrite span_digits_app; [|now apply Forall_rev|intros c r F; injection F as <- _; reflexivity].
    destruct (rev ds) as [|x rd] eqn:Rd.
    { apply (f_equal (@rev _)) in Rd. rewrite rev_involutive in Rd. cbn in Rd. congruence. }
    destruct (rev base) as [|y rb] eqn:Rb.
    { apply (f_equal (@rev _)) in Rb. rewrite rev_involutive in Rb. cbn in Rb. congruence. }
    change (ascii_eqb (ch 40) (ch 40)) with true.
    replace (existsb (ascii_eqb newline) (y :: rb)) with false.
    2:{ symmetry. apply not_true_iff_false. intros F. apply existsb_exists in F as (z & I & F).
        apply ascii_eqb_spec in F as <-. apply Nn. apply in_rev. now rewrite Rb. }
    cbn [andb negb]. rewrite <- Rd, <- Rb, !rev_involutive. reflexivity.
Qed.

Lemma counter_name_dec base k s : 0 <= k -> (counter_name base k s <-> s = base ++ [ch 40] ++ dec k ++ [ch 41]).
Proof.
  intros H. split.
  - intros (ds & -> & N & D & T & V). rewrite value_int_of in V. now rewrite <- (dec_int_of ds), V by assumption.
  - intros ->. exists (dec k). repeat split; [now apply dec_nonempty|now apply dec_digits|now apply dec_tight|].
    rewrite value_int_of. now apply int_of_dec.
Qed.

Lemma nonexisting_ok ex l fuel name : no_braces name -> finite ex l -> (length l < fuel)%nat ->
  exists s, nonexisting_name ex fuel name = Some (Ok s) /\ ex s = false /\
    (ex name = false -> s = name) /\
    (ex name = true -> exists base i j,
       ((exists ds, counted name base ds /\ i = value ds + 1) \/
        ((forall b ds, ~ counted name b ds) /\ base = name /\ i = 1)) /\
       i <= j <= i + Z.of_nat (length l) /\ counter_name base j s /\
       (forall k u, i <= k < j -> counter_name base k u -> ex u = true)).
Proof.
  intros B F L. unfold nonexisting_name. destruct (ex name) eqn:X; cbn [negb].
  2:{ exists name. repeat split; try assumption; discriminate. }
  destruct (split_counter name) as [[base ds]|] eqn:S.
  - apply split_counter_ok in S. destruct S as (E & Nb & Nn & Nd & D).
    assert (Bb : no_braces base) by (destruct E as [-> | ->]; apply no_braces_app in B; tauto).
    pose proof (int_of_nonneg ds D).
    destruct (first_index_ok ex base l fuel (int_of ds + 1) Bb F L ltac:(lia)) as (j & I1 & I2 & I3 & I4).
    eexists. split; [exact I1|]. split; [exact I3|]. split; [discriminate|]. intros _.
    exists base, (int_of ds + 1), j. split.
    { left. exists ds. rewrite value_int_of. split; [|reflexivity]. now repeat split. }
    split; [exact I2|]. split; [apply counter_name_dec; [lia|reflexivity]|].
    intros k u Hk Hu. apply counter_name_dec in Hu; [|lia]. subst u. now apply I4.
  - destruct (first_index_ok ex name l fuel 1 B F L ltac:(lia)) as (j & I1 & I2 & I3 & I4).
    eexists. split; [exact I1|]. split; [exact I3|]. split; [discriminate|]. intros _.
    exists name, 1, j. split.
    { right. repeat split. intros b ds C. apply split_counter_ok in C. congruence. }
    split; [exact I2|]. split; [apply counter_name_dec; [lia|reflexivity]|].
    intros k u Hk Hu. apply counter_name_dec in Hu; [|lia]. subst u. now apply I4.
Qed.

(* ---- witnesses ---- *)
Lemma brace_loop fuel ex : ex (txt "a{:01d}") = true -> first_free ex fuel (new_Name (txt "a{0}")) = None.
Proof.
  intros X.
  assert (G : forall f n, n_fmt n = txt "a{{:01d}}" -> first_free ex f n = None).
  { induction f as [|f IH]; intros n E; [reflexivity|]. cbn [first_free]. unfold name_str. rewrite E.
    replace (pyformat (txt "a{{:01d}}") (n_num n)) with (Fmt (txt "a{:01d}")) by reflexivity.
    rewrite X. apply IH. unfold name_iadd. now destruct (n_locked n). }
  now apply G.
Qed.
Lemma locked_loop fuel ex name s : name_str (new_Name name) = Fmt s -> ex s = true ->
  first_free ex fuel (name_unlock (name_lock (new_Name name))) = None.
Proof.
  intros E X. induction fuel as [|f IH]; [reflexivity|]. cbn [first_free].
  unfold name_str in *. cbn [name_unlock name_lock n_fmt n_num]. rewrite E, X. exact IH.
Qed.
Lemma name_ops name x s : no_braces name -> 0 <= x ->
  name_str (name_iadd (new_Name name) x) = Fmt s -> nth_name name x s.
Proof.
  intros B H E. destruct (index_name_ok name x B H) as [F G].
  unfold name_str, name_iadd, new_Name in *. destruct (naming_format name) as [[fmt num] nn].
  cbn [n_locked n_fmt n_num n_org] in *. rewrite F in E. injection E as <-. exact G.
Qed.
Lemma prepare_first name : no_braces name -> exists s, prepare name = Fmt s /\
  (no_digits name -> s = name ++ [ch 46] ++ [ch 49]) /\ (~ no_digits name -> s = name).
Proof.
  intros B. destruct (index_name_ok name 0 B ltac:(lia)) as [F G].
  exists (index_name name 0). split; [|now apply nth_name_0].
  unfold prepare. unfold new_Name in F. destruct (naming_format name) as [[fmt num] nn].
  cbn [n_fmt n_org] in F. rewrite <- F. f_equal. lia.
Qed.
