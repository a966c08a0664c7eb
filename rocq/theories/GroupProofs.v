From Coq Require Import String.
From Verif Require Import Base Text TextProofs GroupModel GroupSpec.
From Verif Require XiaNameProofs XiaSelectProofs.
Close Scope string_scope.
Local Open Scope nat_scope.
Local Notation s := list_ascii_of_string.

Lemma starts_app p t : starts p (p ++ t) = Some t.
Proof. exact (XiaNameProofs.starts_app p t). Qed.
Lemma starts_none p t : ~ begins p t -> starts p t = None.
Proof.
  intros N. destruct (starts p t) as [r|] eqn:E; [|reflexivity]. exfalso. apply N. exists r.
  now apply XiaSelectProofs.starts_some.
Qed.
Lemma strip_app p t : strip p (p ++ t) = t.
Proof. unfold strip. now rewrite starts_app. Qed.
Lemma strip_none p t : ~ begins p t -> strip p t = t.
Proof. intros N. unfold strip. now rewrite starts_none. Qed.
Lemma begins_spec p t : begins p t <-> starts p t <> None.
Proof.
  split.
  - intros (b & ->). rewrite starts_app. discriminate.
  - intros N. destruct (starts p t) as [r|] eqn:E; [|congruence]. exists r. now apply XiaSelectProofs.starts_some.
Qed.
Lemma contains_spec p t : contains p t = true <-> inside p t.
Proof.
  split.
  - induction t as [|c t IH]; cbn [contains].
    + destruct (starts p []) as [r|] eqn:E; [|discriminate]. intros _. apply XiaSelectProofs.starts_some in E.
      exists [], r. exact E.
    + destruct (starts p (c :: t)) as [r|] eqn:E.
      * intros _. apply XiaSelectProofs.starts_some in E. now exists [], r.
      * intros H. destruct (IH H) as (a & b & ->). now exists (c :: a), b.
  - intros (a & b & ->). induction a as [|c a IH].
    + cbn [app]. destruct (p ++ b) eqn:E; cbn [contains]; rewrite <- E, starts_app; reflexivity.
    + cbn [app contains]. rewrite IH. now destruct (starts p (c :: a ++ p ++ b)).
Qed.
Lemma digits_no_xia t : forallb digit t = true -> ~ begins (s "xia") t /\ ~ begins (s "detector") t /\ ~ begins (s "S") t.
Proof. intros D. repeat split; intros (b & ->); discriminate. Qed.
(* the prefixes are removed *)
Lemma stripped p t : In p prefixes -> (~ begins (s "xia") t) -> (~ begins (s "detector") t) ->
  strip (s "detector") (strip (s "xia") (p ++ t)) = t.
Proof.
  intros I X D. destruct I as [<- | [<- | [<- | [<- | []]]]].
  - cbn [app]. rewrite (strip_none (s "xia") t X). exact (strip_none _ _ D).
  - rewrite strip_app. now apply strip_none.
  - rewrite (strip_none (s "xia")) by (intros (b & E); discriminate). apply strip_app.
  - rewrite <- app_assoc, strip_app. apply strip_app.
Qed.
Lemma int_digits_ok t : forall v b, forallb digit t = true -> (t <> [] \/ b = true) ->
  int_digits b v t = Ok (fold_left (fun v c => 10 * v + digit_val c)%Z t v).
Proof.
  induction t as [|c t IH]; intros v b D N; cbn [int_digits fold_left].
  - destruct N as [N | ->]; [congruence|reflexivity].
  - cbn [forallb] in D. apply Bool.andb_true_iff in D. destruct D as [-> D]. apply IH; auto.
Qed.
Lemma digit_not_blank c : digit c = true -> blank c = false.
Proof.
  unfold digit, blank. rewrite Bool.andb_true_iff, !Z.leb_le. intros [A B].
  repeat (apply Bool.orb_false_iff; split).
  - apply Nat.eqb_neq. lia.
  - apply Bool.andb_false_iff. right. apply Nat.leb_gt. lia.
  - apply Bool.andb_false_iff. right. apply Nat.leb_gt. lia.
Qed.
Lemma lstrip_id t : (match t with c :: _ => blank c = false | [] => True end) -> lstrip t = t.
Proof. destruct t as [|c t]; [reflexivity|]. cbn [lstrip]. now intros ->. Qed.
Lemma strip_blank_digits t : forallb digit t = true -> strip_blank t = t.
Proof.
  intros D. unfold strip_blank.
  assert (L : lstrip t = t).
  { apply lstrip_id. destruct t as [|c t]; [exact I|]. cbn [forallb] in D. apply Bool.andb_true_iff in D. now apply digit_not_blank. }
  rewrite L. rewrite lstrip_id; [apply rev_involutive|].
  destruct (rev t) as [|c r] eqn:E; [exact I|]. apply digit_not_blank.
  rewrite forallb_forall in D. apply D. apply in_rev. rewrite E. now left.
Qed.
Lemma py_int_digits t : digits1 t -> py_int t = Ok (int_of t).
Proof.
  intros [Ne D]. unfold py_int. rewrite strip_blank_digits by exact D. destruct t as [|c t]; [congruence|].
  assert (C : digit c = true) by (cbn [forallb] in D; apply Bool.andb_true_iff in D; apply D).
  assert (N1 : ascii_eqb c (ch 45) = false).
  { destruct (ascii_eqb c (ch 45)) eqn:E; [|reflexivity]. apply ascii_eqb_spec in E. subst c. discriminate. }
  assert (N2 : ascii_eqb c (ch 43) = false).
  { destruct (ascii_eqb c (ch 43)) eqn:E; [|reflexivity]. apply ascii_eqb_spec in E. subst c. discriminate. }
  rewrite N1, N2. rewrite int_digits_ok; [reflexivity|exact D|now left].
Qed.
Lemma int_of_digits t : forallb digit t = true -> (0 <= int_of t)%Z.
Proof. intros D. apply int_of_nonneg. unfold NameSpec.digits. apply Forall_forall. now apply forallb_forall. Qed.
Lemma format_nonneg w n : (0 <= n)%Z -> format_int w n = zpad w (dec n).
Proof. intros H. unfold format_int. now replace (n <? 0)%Z with false by (symmetry; apply Z.ltb_ge; lia). Qed.
Lemma zpad1 n : (0 <= n)%Z -> zpad 1 (dec n) = dec n.
Proof.
  intros H. apply zpad_long. pose proof (dec_nonempty n H) as N. destruct (dec n); [congruence|cbn; lia].
Qed.
Lemma isdigit_digits t : digits1 t -> isdigit t = true.
Proof. intros [N D]. unfold isdigit. destruct t; [congruence|exact D]. Qed.
Definition body (t : chars) : result grp :=
  if isdigit t then Ok (mkGrp (s "detector" ++ format_int 2 (int_of t)) (int_of t) 0)
  else
    match starts (s "S") t with
    | Some r => let! n := py_int r in Ok (mkGrp (s "detectorS" ++ format_int 1 n) n 1)
    | None =>
        if contains (s "parameters") t || contains (s "concentrations") t then Ok (mkGrp t (-1) 0)
        else match t with
             | [] => Ok (mkGrp (s "counters") (-1) (-1))
             | _ => Ok (mkGrp t (-1) (-1))
             end
    end.
Lemma make_str t0 t : strip (s "detector") (strip (s "xia") t0) = t -> make (GStr t0) = body t.
Proof. intros <-. reflexivity. Qed.
Lemma body_digits t : digits1 t -> body t = Ok (mkGrp (s "detector" ++ zpad 2 (dec (int_of t))) (int_of t) 0).
Proof.
  intros D. unfold body. rewrite isdigit_digits by exact D. rewrite format_nonneg; [reflexivity|]. apply int_of_digits. apply D.
Qed.
Lemma body_sum t : digits1 t -> body (s "S" ++ t) = Ok (mkGrp (s "detectorS" ++ dec (int_of t)) (int_of t) 1).
Proof.
  intros D. unfold body. replace (isdigit (s "S" ++ t)) with false by reflexivity.
  rewrite starts_app, py_int_digits by exact D. cbn [bind]. assert (N := int_of_digits t (proj2 D)).
  now rewrite format_nonneg, zpad1.
Qed.
Lemma body_name t : free t -> exists g, body t = Ok g /\ is_group (Named t) g.
Proof.
  intros (Ne & D & NS). unfold body.
  replace (isdigit t) with false by (destruct t; [congruence|symmetry; exact D]). rewrite starts_none by exact NS.
  destruct (contains (s "parameters") t || contains (s "concentrations") t) eqn:C.
  - exists (mkGrp t (-1) 0). split; [reflexivity|]. cbn [is_group g_name g_number g_category].
    split; [reflexivity|]. split; [reflexivity|]. left. split; [|reflexivity].
    apply Bool.orb_true_iff in C. destruct C as [C | C]; [left|right]; now apply contains_spec.
  - destruct t as [|c t]; [congruence|]. exists (mkGrp (c :: t) (-1) (-1)). split; [reflexivity|].
    cbn [is_group g_name g_number g_category]. split; [reflexivity|]. split; [reflexivity|]. right.
    apply Bool.orb_false_iff in C. destruct C as [C1 C2].
    split; [intros Q; apply contains_spec in Q; congruence|]. split; [intros Q; apply contains_spec in Q; congruence|reflexivity].
Qed.
Lemma s_no_prefix t : ~ begins (s "xia") (s "S" ++ t) /\ ~ begins (s "detector") (s "S" ++ t).
Proof. split; intros (b & E); discriminate. Qed.
Lemma spells_make i k : spells i k -> exists g, make i = Ok g /\ is_group k g.
Proof.
  intros [n H|p t I D|p t I D|p I| |t F X D|t F D|t F|t F].
  - eexists. split; [cbn [make]; rewrite format_nonneg by exact H; reflexivity|reflexivity].
  - destruct (digits_no_xia t (proj2 D)) as (X & E & _). eexists. split; [|reflexivity].
    rewrite (make_str _ t) by (now apply stripped). now apply body_digits.
  - destruct (s_no_prefix t) as (X & E). eexists. split; [|reflexivity].
    rewrite (make_str _ (s "S" ++ t)) by (now apply stripped). now apply body_sum.
  - exists (mkGrp (s "counters") (-1) (-1)). split; [|reflexivity].
    destruct I as [<- | [<- | [<- | [<- | []]]]]; reflexivity.
  - exists (mkGrp (s "counters") (-1) (-1)). split; reflexivity.
  - rewrite (make_str t t) by (rewrite (strip_none (s "xia") t X); exact (strip_none _ _ D)). now apply body_name.
  - rewrite (make_str _ t) by (rewrite strip_app; now apply strip_none). now apply body_name.
  - rewrite (make_str _ t); [now apply body_name|]. rewrite (strip_none (s "xia")) by (intros (b & E); discriminate). apply strip_app.
  - rewrite (make_str _ t); [now apply body_name|]. rewrite strip_app. apply strip_app.
Qed.
Lemma is_group_unique k a b : is_group k a -> is_group k b -> a = b.
Proof.
  destruct k as [n|n|t|]; cbn [is_group]; try congruence.
  destruct a as [na xa ca], b as [nb xb cb]; cbn [g_name g_number g_category]. intros (A1 & A2 & A3) (B1 & B2 & B3). subst. f_equal.
  destruct A3 as [(A & ->) | (A & A' & ->)], B3 as [(B & ->) | (B & B' & ->)]; try reflexivity; tauto.
Qed.
Lemma same_spelling i j k a b : spells i k -> spells j k -> make i = Ok a -> make j = Ok b -> a = b.
Proof.
  intros I J A B. destruct (spells_make i k I) as (a' & A' & Ga). destruct (spells_make j k J) as (b' & B' & Gb).
  replace a with a' by congruence. replace b with b' by congruence. now apply (is_group_unique k).
Qed.
Lemma zpad_dec_digits1 w n : (0 <= n)%Z -> digits1 (zpad w (dec n)) /\ int_of (zpad w (dec n)) = n.
Proof.
  intros H. split; [split|].
  - pose proof (dec_nonempty n H). unfold zpad. intros E. apply app_eq_nil in E. now destruct E.
  - apply XiaNameProofs.forallb_digits. apply zpad_digits. now apply dec_digits.
  - rewrite int_of_zpad. now apply int_of_dec.
Qed.
Lemma dec_digits1 n : (0 <= n)%Z -> digits1 (dec n) /\ int_of (dec n) = n.
Proof. intros H. destruct (zpad_dec_digits1 0 n H) as [A B]. unfold zpad in *. exact (conj A B). Qed.
Lemma in_prefix_detector : In (s "detector") prefixes.
Proof. right. right. now left. Qed.
Lemma in_prefix_xia : In (s "xia") prefixes.
Proof. right. now left. Qed.
Lemma counters_free : free (s "counters") /\ ~ begins (s "xia") (s "counters") /\ ~ begins (s "detector") (s "counters").
Proof.
  split; [|split; intros (b & E); discriminate]. split; [discriminate|]. split; [reflexivity|]. intros (b & E). discriminate.
Qed.
Lemma print_parse k g : printable k -> is_group k g -> make (GStr (g_name g)) = Ok g.
Proof.
  destruct k as [n|n|t|]; cbn [printable]; intros H G.
  - destruct (zpad_dec_digits1 2 n H) as [D E].
    destruct (spells_make _ _ (sp_digits _ _ in_prefix_detector D)) as (g' & M & G'). rewrite E in G'.
    rewrite (is_group_unique _ _ _ G G'). cbn [is_group] in G'. rewrite G' in M |- *. exact M.
  - destruct (dec_digits1 n H) as [D E].
    destruct (spells_make _ _ (sp_sum _ _ in_prefix_detector D)) as (g' & M & G'). rewrite E in G'.
    rewrite (is_group_unique _ _ _ G G'). cbn [is_group] in G'. rewrite G' in M |- *. exact M.
  - destruct H as (F & X & D). destruct (spells_make _ _ (sp_name t F X D)) as (g' & M & G').
    rewrite (is_group_unique _ _ _ G G'). replace (g_name g') with t; [exact M|]. symmetry. apply G'.
  - cbn [is_group] in G. subst g. reflexivity.
Qed.
Lemma copy_group g : make (GGrp g) = Ok g.
Proof. now destruct g. Qed.
Lemma label_parse k g l : printable k -> is_group k g -> match k with Single _ | Sum _ => True | _ => False end ->
  xialabel g = Some l -> make (GStr l) = Ok g.
Proof.
  destruct k as [n|n|t|]; cbn [printable]; intros H G [].
  - cbn [is_group] in G. subst g. unfold xialabel, issingle. cbn [g_category g_number]. change (0 =? 0)%Z with true. cbv iota.
    rewrite format_nonneg by exact H. intros L. replace l with (s "xia" ++ zpad 2 (dec n)) by congruence.
    destruct (zpad_dec_digits1 2 n H) as [D E].
    destruct (spells_make _ _ (sp_digits _ _ in_prefix_xia D)) as (g' & M & G'). rewrite E in G'. cbn [is_group] in G'. subst g'. exact M.
  - cbn [is_group] in G. subst g. unfold xialabel, issingle, issum. cbn [g_category g_number]. change (1 =? 0)%Z with false.
    change (1 =? 1)%Z with true. cbv iota. unfold str_int. replace (n <? 0)%Z with false by (symmetry; apply Z.ltb_ge; lia).
    intros L. replace l with (s "xia" ++ s "S" ++ dec n) by (change (s "xiaS" ++ dec n) with (s "xia" ++ s "S" ++ dec n) in L; congruence).
    destruct (dec_digits1 n H) as [D E].
    destruct (spells_make _ _ (sp_sum _ _ in_prefix_xia D)) as (g' & M & G'). rewrite E in G'. cbn [is_group] in G'. subst g'. exact M.
Qed.
Lemma equal_spec a b : (eq_op a (OGrp b) = true <-> g_name a = g_name b) /\
  (eq_op a (OGrp b) = true <-> hash_key a = hash_key b) /\ ne_op a (OGrp b) = negb (eq_op a (OGrp b)).
Proof. unfold eq_op, compareop, cmpkey, op_eq. unfold hash_key. rewrite chars_eqb_spec. repeat split; auto. Qed.
Lemma text_equal a t : eq_op a (OText t) = true <-> g_name a = t.
Proof. unfold eq_op, compareop, cmpkey, op_eq. apply chars_eqb_spec. Qed.
(* different kinds have different names *)
Lemma name_inj k k' a b : printable k -> printable k' -> is_group k a -> is_group k' b -> g_name a = g_name b ->
  a = b /\ (k = k' \/ (k = Named (s "counters") /\ k' = Counters) \/ (k = Counters /\ k' = Named (s "counters"))).
Proof.
  intros P P' A B E. assert (Q : a = b).
  { pose proof (print_parse k a P A) as X. pose proof (print_parse k' b P' B) as Y. rewrite E in X. congruence. }
  split; [exact Q|]. subst b.
  destruct k as [n|n|t|], k' as [n'|n'|t'|]; cbn [is_group] in A, B.
  - left. rewrite A in B. congruence.
  - exfalso. rewrite A in B. discriminate.
  - exfalso. destruct B as (B1 & B2 & B3). rewrite A in B2. cbn [g_number] in B2. cbn [printable] in P. lia.
  - exfalso. rewrite A in B. discriminate.
  - exfalso. rewrite A in B. discriminate.
  - left. rewrite A in B. congruence.
  - exfalso. destruct B as (B1 & B2 & B3). rewrite A in B2. cbn [g_number] in B2. cbn [printable] in P. lia.
  - exfalso. rewrite A in B. discriminate.
  - exfalso. destruct A as (A1 & A2 & A3). rewrite B in A2. cbn [g_number] in A2. cbn [printable] in P'. lia.
  - exfalso. destruct A as (A1 & A2 & A3). rewrite B in A2. cbn [g_number] in A2. cbn [printable] in P'. lia.
  - left. destruct A as (A1 & _), B as (B1 & _). congruence.
  - right. left. destruct A as (A1 & _). rewrite B in A1. cbn [g_name] in A1. split; congruence.
  - exfalso. rewrite A in B. discriminate.
  - exfalso. rewrite A in B. discriminate.
  - right. right. destruct B as (B1 & _). rewrite A in B1. cbn [g_name] in B1. split; congruence.
  - now left.
Qed.
(* names that begin with S *)
Lemma s_error p t e : In p prefixes -> py_int t = Err e -> make (GStr (p ++ s "S" ++ t)) = Err e.
Proof.
  intros I E. destruct (s_no_prefix t) as (X & D). rewrite (make_str _ (s "S" ++ t)) by (now apply stripped).
  unfold body. replace (isdigit (s "S" ++ t)) with false by reflexivity. rewrite starts_app, E. reflexivity.
Qed.
Lemma int_digits_err t : forall b v e, int_digits b v t = Err e -> e = ValueError.
Proof.
  induction t as [|c t IH]; intros b v e; cbn [int_digits].
  - destruct b; congruence.
  - destruct (digit c); [apply IH|]. destruct (ascii_eqb c (ch 95) && b); [apply IH|congruence].
Qed.
Lemma py_int_err t e : py_int t = Err e -> e = ValueError.
Proof.
  unfold py_int. destruct (strip_blank t) as [|c r]; [congruence|].
  destruct (ascii_eqb c (ch 45)).
  - destruct (int_digits false 0%Z r) eqn:E; cbn [bind]; [discriminate|]. intros H. apply int_digits_err in E. congruence.
  - destruct (ascii_eqb c (ch 43)); apply int_digits_err.
Qed.
Lemma int_digits_letter t : forall b v c, In c t -> digit c = false -> c <> ch 95 -> int_digits b v t = Err ValueError.
Proof.
  induction t as [|d t IH]; intros b v c I D N; [destruct I|]. cbn [int_digits]. destruct I as [-> | I].
  - rewrite D. replace (ascii_eqb c (ch 95)) with false; [reflexivity|].
    destruct (ascii_eqb c (ch 95)) eqn:E; [apply ascii_eqb_spec in E; congruence|reflexivity].
  - destruct (digit d); [now apply (IH _ _ c)|]. destruct (ascii_eqb d (ch 95) && b); [now apply (IH _ _ c)|reflexivity].
Qed.
Lemma lstrip_keeps c t : In c t -> blank c = false -> In c (lstrip t).
Proof.
  intros I B. induction t as [|d t IH]; [destruct I|]. cbn [lstrip]. destruct (blank d) eqn:E; [|exact I].
  destruct I as [-> | I]; [congruence|auto].
Qed.
Lemma py_int_letter t c : In c t -> numeric c = false -> py_int t = Err ValueError.
Proof.
  intros I N. unfold numeric in N. rewrite !Bool.orb_false_iff in N. destruct N as [[[[D B] U] M] Pl].
  assert (J : In c (strip_blank t)).
  { unfold strip_blank. apply -> in_rev. apply lstrip_keeps; [|exact B]. apply -> in_rev. now apply lstrip_keeps. }
  assert (U' : c <> ch 95) by (intros ->; now rewrite ascii_eqb_refl in U).
  unfold py_int. destruct (strip_blank t) as [|d r]; [reflexivity|].
  destruct (ascii_eqb d (ch 45)) eqn:Ed.
  - destruct J as [-> | J]; [congruence|]. now rewrite (int_digits_letter r false 0%Z c J D U').
  - destruct (ascii_eqb d (ch 43)) eqn:Ep.
    + destruct J as [-> | J]; [congruence|]. now apply (int_digits_letter r false 0%Z c).
    + now apply (int_digits_letter (d :: r) false 0%Z c).
Qed.
Lemma s_name_error p t c : In p prefixes -> In c t -> numeric c = false -> make (GStr (p ++ s "S" ++ t)) = Err ValueError.
Proof. intros I J N. apply s_error; [exact I|]. now apply (py_int_letter t c). Qed.
Lemma make_error i e : make i = Err e -> e = ValueError.
Proof.
  destruct i as [n|t|g| |]; cbn [make]; try discriminate; [|congruence].
  change (body (strip (s "detector") (strip (s "xia") t)) = Err e -> e = ValueError).
  generalize (strip (s "detector") (strip (s "xia") t)). intros u. unfold body. destruct (isdigit u); [discriminate|].
  destruct (starts (s "S") u) as [r|].
  - destruct (py_int r) eqn:E; cbn [bind]; [discriminate|]. intros H. apply py_int_err in E. congruence.
  - destruct (contains (s "parameters") u || contains (s "concentrations") u); [discriminate|]. destruct u; discriminate.
Qed.
Lemma no_order a b : lt_op a b = Err TypeError /\ le_op a b = Err TypeError /\ gt_op a b = Err TypeError /\ ge_op a b = Err TypeError.
Proof. destruct b as [b|t|]; repeat split. Qed.
