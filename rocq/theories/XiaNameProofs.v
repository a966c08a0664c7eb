From Coq Require Import String.
From Verif Require Import Base Text TextProofs XiaModel XiaSpec XiaProofs.
From Verif Require PathModel PathProofs NameSpec.
Close Scope string_scope.
Local Open Scope nat_scope.
Local Notation s := list_ascii_of_string.

Lemma forallb_digits d : NameSpec.digits d -> forallb digit d = true.
Proof. intros H. apply forallb_forall. now apply Forall_forall. Qed.
Lemma format4 n : (0 <= n)%Z -> num (format_int 4 n) /\ int_of (format_int 4 n) = n.
Proof.
  intros H. unfold format_int. replace (n <? 0)%Z with false by (symmetry; apply Z.ltb_ge; lia).
  split; [split|].
  - apply forallb_digits. apply zpad_digits. now apply dec_digits.
  - rewrite zpad_length. lia.
  - rewrite int_of_zpad. now apply int_of_dec.
Qed.
Lemma basename_path f t : ~ In (ch 47) t -> is_path f t -> PathModel.basename f = t.
Proof.
  intros N [-> | (dir & ->)]; unfold PathModel.basename.
  - now rewrite PathProofs.last_component_word.
  - now apply PathProofs.last_component_slash.
Qed.
Lemma num_plain d : num d -> ~ In (ch 47) d.
Proof. intros [D _] I. rewrite forallb_forall in D. specialize (D _ I). discriminate. Qed.
Lemma app_no {A} (x : A) a b : ~ In x a -> ~ In x b -> ~ In x (a ++ b).
Proof. intros H K I. apply in_app_or in I. tauto. Qed.
Ltac no_slash := cbn; intuition discriminate.

Lemma spectrum_round f counters radix m l label : (0 <= m)%Z -> (0 <= l)%Z -> radix <> [] -> plain radix ->
  spectrum_label label -> is_path f (xiafilename radix m l label) ->
  parse_with counters f = Ok (named radix m l label).
Proof.
  intros Hm Hl Ne P SL F. destruct (format4 m Hm) as [Nm Im]. destruct (format4 l Hl) as [Nl Il].
  unfold xiafilename in F. replace (l =? -1)%Z with false in F by (symmetry; apply Z.eqb_neq; lia).
  assert (Lp : ~ In (ch 47) label).
  { destruct SL as [-> | (a & b & -> & _ & Q)]; [no_slash|]. intros I. apply in_app_or in I.
    destruct I as [I | I]; [revert I; no_slash|auto]. }
  apply basename_path in F.
  2:{ repeat apply app_no; try (apply num_plain; assumption); try (apply P); try exact Lp; no_slash. }
  unfold parse_with. rewrite F. unfold patterns. cbn [app first_match].
  destruct SL as [-> | (a & b & -> & Qn & Qs)].
  - change (radix ++ s "_" ++ s "mca" ++ s "_" ++ format_int 4 m ++ s "_0000_" ++ format_int 4 l ++ s ".edf")
      with (radix ++ s "_mca" ++ s "_" ++ format_int 4 m ++ s "_0000_" ++ format_int 4 l ++ s ".edf").
    rewrite mca_not_xia by assumption.
    rewrite mca_ok by (auto; now apply plain_any).
    cbn [cap Nat.eqb g_line g_map g_label g_radix]. rewrite Im, Il. reflexivity.
  - replace (radix ++ s "_" ++ (s "xia" ++ [a; b]) ++ s "_" ++ format_int 4 m ++ s "_0000_" ++ format_int 4 l ++ s ".edf")
      with (radix ++ s "_xia" ++ [a; b] ++ s "_" ++ format_int 4 m ++ s "_0000_" ++ format_int 4 l ++ s ".edf")
      by (rewrite <- !app_assoc; reflexivity).
    rewrite xia_ok; [|exact Ne|now apply plain_any| | |assumption|assumption].
    + cbn [cap Nat.eqb g_line g_map g_label g_radix]. rewrite Im, Il. reflexivity.
    + apply any_true. intros ->. apply Qn. now left.
    + apply any_true. intros ->. apply Qn. right. now left.
Qed.
Lemma first_match_skip before rest t : Forall (fun p => rmatch p t [] [] = None) before ->
  first_match (before ++ rest) t = first_match rest t.
Proof. induction 1 as [|p before H _ IH]; [reflexivity|]. cbn [app first_match]. now rewrite H. Qed.
Lemma counter_round f counters before ctr after radix m label :
  default_names ++ counters = before ++ ctr :: after ->
  (0 <= m)%Z -> radix <> [] -> plain radix -> plain label ->
  counter_of ctr label -> unambiguous before ctr radix label ->
  digit (hd underscore ctr) = false -> ctr <> [] -> ~ numbered label ->
  is_path f (xiafilename radix m (-1) label) ->
  parse_with counters f = Ok (named radix m (-1) label).
Proof.
  intros B Hm Ne P PL (y & -> & Ny) [U1 U2] C Nc Nn F. destruct (format4 m Hm) as [Nm Im].
  unfold xiafilename in F. change (-1 =? -1)%Z with true in F. cbv iota in F.
  apply basename_path in F.
  2:{ apply app_no; [apply P|]. apply app_no; [no_slash|]. apply app_no; [apply PL|].
      apply app_no; [no_slash|]. apply app_no; [now apply num_plain|no_slash]. }
  unfold parse_with. rewrite F. unfold patterns. rewrite <- map_app, B, map_app.
  set (t := radix ++ s "_" ++ (ctr ++ y) ++ s "_" ++ format_int 4 m ++ s "_0000.edf") in *.
  rewrite first_match_skip.
  2:{ constructor.
      - apply (ctr_not_spectrum xia_items xia_rest); auto. intros t0 cur cs r H. apply xia_rest_inv in H.
        destruct H as (a & b & m' & l & x & n & -> & M & L & N). exists (s "_xia" ++ [a; b]), m', l, x, n.
        split; [reflexivity|auto].
      - constructor; [|constructor]. apply (ctr_not_spectrum mca_items mca_rest); auto.
        intros t0 cur cs r H. apply mca_rest_inv in H. destruct H as (m' & l & x & n & -> & M & L & N).
        exists (s "_mca"), m', l, x, n. split; [reflexivity|auto]. }
  rewrite first_match_skip.
  2:{ apply Forall_forall. intros p Ip. apply in_map_iff in Ip. destruct Ip as (c & <- & Ic).
      apply ctr_none; auto. }
  cbn [map first_match]. unfold t.
  rewrite ctr_ok; [|exact Ne|now apply plain_any|exact Ny| |exact Nm|exact U2].
  - cbn [cap Nat.eqb g_line g_map g_label g_radix]. rewrite Im. unfold named. now destruct (parse_label (ctr ++ y)).
  - destruct PL as [Q _]. apply forallb_forall. intros c I. apply any_true. intros ->. apply Q.
    apply in_or_app. now right.
Qed.

(* ---- labels ---- *)
Lemma label_xia d : parse_label (s "xia" ++ d) = (s "xia", d).
Proof. reflexivity. Qed.
Lemma starts_app p t : starts p (p ++ t) = Some t.
Proof. induction p as [|c p IH]; [reflexivity|]. cbn [app starts]. now rewrite ascii_eqb_refl. Qed.
Lemma detector_no_under d : is_detector d = true -> ~ In underscore d.
Proof.
  unfold is_detector. intros H I.
  assert (A : forall t, all_digits t = true -> ~ In underscore t).
  { intros t T J. unfold all_digits in T. destruct t as [|c t]; [discriminate|].
    rewrite forallb_forall in T. specialize (T _ J). discriminate. }
  apply Bool.orb_true_iff in H. destruct H as [H | H].
  - apply Bool.orb_true_iff in H. destruct H as [H | H].
    + apply Bool.orb_true_iff in H. destruct H as [H | H]; [now apply (A d)|].
      apply chars_eqb_spec in H. subst d. revert I. cbn. intuition discriminate.
    + apply chars_eqb_spec in H. subst d. revert I. cbn. intuition discriminate.
  - destruct d as [|c d]; [discriminate|]. apply Bool.andb_true_iff in H. destruct H as [H1 H2].
    apply ascii_eqb_spec in H1. destruct I as [I | I]; [subst; discriminate|]. now apply (A d).
Qed.
Lemma split_detector_ok d name : is_detector d = true ->
  forall acc, split_detector acc (name ++ s "_" ++ d) = Some (rev acc ++ name, d).
Proof.
  intros D. induction name as [|c name IH]; intros acc.
  - change ([] ++ s "_" ++ d) with (underscore :: d). cbn [split_detector].
    rewrite ascii_eqb_refl, D. cbn [andb]. now rewrite app_nil_r.
  - change ((c :: name) ++ s "_" ++ d) with (c :: (name ++ s "_" ++ d)). cbn [split_detector].
    assert (N : forall t, In underscore t -> is_detector t = false).
    { intros t I. destruct (is_detector t) eqn:E; [|reflexivity]. now apply detector_no_under in E. }
    assert (I : In underscore (name ++ s "_" ++ d)) by (apply in_or_app; right; now left).
    rewrite (N (name ++ s "_" ++ d)) by exact I. rewrite (N (c :: name ++ s "_" ++ d)) by (now right).
    rewrite Bool.andb_false_r, IH. cbn [rev]. now rewrite <- app_assoc.
Qed.
Lemma label_detector base x d : In base [s "xmap"; s "PUZ_xmap"] -> is_detector d = true ->
  (forall a, base ++ x <> a ++ s "_") ->
  parse_label (base ++ x ++ s "_" ++ d) = (base ++ x, d).
Proof.
  intros B D N.
  assert (S1 : strip_underscore (base ++ x) = base ++ x).
  { unfold strip_underscore. destruct (rev (base ++ x)) as [|c r] eqn:R; [reflexivity|].
    destruct (ascii_eqb c underscore) eqn:E; [|reflexivity]. apply ascii_eqb_spec in E. subst c.
    exfalso. apply (N (rev r)). rewrite <- (rev_involutive (base ++ x)), R. reflexivity. }
  assert (S2 : split_detector [] (base ++ x ++ s "_" ++ d) = Some (base ++ x, d)).
  { rewrite app_assoc. now rewrite (split_detector_ok d (base ++ x) D []). }
  destruct B as [<- | [<- | []]].
  - assert (E : parse_label (s "xmap" ++ x ++ s "_" ++ d) =
      match split_detector [] (s "xmap" ++ x ++ s "_" ++ d) with
      | Some (n, d) => (strip_underscore n, d)
      | None => (s "xmap" ++ x ++ s "_" ++ d, [])
      end) by reflexivity.
    rewrite E, S2, S1. reflexivity.
  - assert (E : parse_label (s "PUZ_xmap" ++ x ++ s "_" ++ d) =
      match split_detector [] (s "PUZ_xmap" ++ x ++ s "_" ++ d) with
      | Some (n, d) => (strip_underscore n, d)
      | None => (s "PUZ_xmap" ++ x ++ s "_" ++ d, [])
      end) by reflexivity.
    rewrite E, S2, S1. reflexivity.
Qed.
Lemma strip_one t : strip_underscore (t ++ s "_") = t.
Proof. unfold strip_underscore. rewrite rev_app_distr. change (rev (s "_") ++ rev t) with (underscore :: rev t).
  change (rev (rev t) = t). apply rev_involutive. Qed.
Lemma label_double base x d : In base [s "xmap"; s "PUZ_xmap"] -> is_detector d = true ->
  parse_label (base ++ x ++ s "__" ++ d) = (base ++ x, d).
Proof.
  intros B D.
  assert (E2 : base ++ x ++ s "__" ++ d = (base ++ x ++ s "_") ++ s "_" ++ d) by (rewrite <- !app_assoc; reflexivity).
  assert (S2 : split_detector [] (base ++ x ++ s "__" ++ d) = Some ((base ++ x) ++ s "_", d)).
  { rewrite E2, (split_detector_ok d (base ++ x ++ s "_") D []). now rewrite <- app_assoc. }
  destruct B as [<- | [<- | []]].
  - assert (E : parse_label (s "xmap" ++ x ++ s "__" ++ d) =
      match split_detector [] (s "xmap" ++ x ++ s "__" ++ d) with
      | Some (n, d) => (strip_underscore n, d)
      | None => (s "xmap" ++ x ++ s "__" ++ d, [])
      end) by reflexivity.
    rewrite E, S2, strip_one. reflexivity.
  - assert (E : parse_label (s "PUZ_xmap" ++ x ++ s "__" ++ d) =
      match split_detector [] (s "PUZ_xmap" ++ x ++ s "__" ++ d) with
      | Some (n, d) => (strip_underscore n, d)
      | None => (s "PUZ_xmap" ++ x ++ s "__" ++ d, [])
      end) by reflexivity.
    rewrite E, S2, strip_one. reflexivity.
Qed.
Lemma label_plain ctr x : In ctr [s "arr"; s "zap"; s "mosca"; s "PUZ_arr"] ->
  parse_label (ctr ++ x) = (ctr ++ x, []).
Proof. intros [<- | [<- | [<- | [<- | []]]]]; reflexivity. Qed.
