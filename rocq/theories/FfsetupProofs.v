From Verif Require Import FfsetupSpec BaseProofs.
From Coq Require Import Lia.
Local Open Scope list_scope.
Local Open Scope nat_scope.

Lemma str_dec : decides_eq String.eqb.
Proof. intros x y. apply String.eqb_eq. Qed.
Lemma sum_total f : sum (map snd f) = total f.
Proof. induction f as [|[k v] f IH]; [reflexivity|]. unfold sum in *. cbn in *. now rewrite IH. Qed.
Lemma sum_others name f : sum (map snd (filter (fun kv => negb (String.eqb (fst kv) name)) f)) = others name f.
Proof.
  unfold sum. induction f as [|[k v] f IH]; [reflexivity|]. cbn [filter fst others]. destruct (String.eqb_spec k name) as [E|E], (string_dec k name); try contradiction; cbn; now rewrite IH.
Qed.
Lemma others_scale name f m : others name (map (fun kv => (fst kv, snd kv * m)%Qc) f) = (others name f * m)%Qc.
Proof. induction f as [|[k v] f IH]; cbn [map others fst snd]; [ring|]. destruct (string_dec k name); rewrite IH; ring. Qed.
Lemma scale_names (f : fractions) m : map fst (map (fun kv => (fst kv, snd kv * m)%Qc) f) = map fst f.
Proof. rewrite map_map. reflexivity. Qed.
Lemma others_absent name f : ~ In name (map fst f) -> others name f = total f.
Proof.
  induction f as [|[k v] f IH]; intros H; [reflexivity|]. cbn [map fst] in H. cbn [others total]. destruct (string_dec k name) as [E|E]; [exfalso; apply H; left; exact E|]. rewrite IH; [reflexivity|]. intros X. apply H. right; exact X.
Qed.
Lemma total_assign name x f : NoDup (map fst f) -> In name (map fst f) -> total (assign String.eqb name x f) = (x + others name f)%Qc.
Proof.
  induction f as [|[k v] f IH]; intros N H; [destruct H|]. cbn in N. inversion_clear N as [|? ? N1 N2]. cbn [assign others].
  destruct (String.eqb_spec name k) as [->|E].
  - cbn [total]. destruct (string_dec k k); [|contradiction]. now rewrite others_absent.
  - cbn [total]. destruct (string_dec k name); [congruence|]. rewrite IH; [ring|exact N2|]. destruct H; [cbn in *; congruence|assumption].
Qed.
Lemma mem_names {V} name (f : list (string * V)) : mem String.eqb name f = true <-> In name (map fst f).
Proof.
  unfold mem. induction f as [|[k v] f IH]; cbn; [split; [discriminate|tauto]|].
  destruct (String.eqb_spec name k); [subst; tauto|]. rewrite IH. split; [tauto|]. intros [E|]; [congruence|tauto].
Qed.
Lemma lookup_scale name (f : fractions) m : lookup String.eqb name (map (fun kv => (fst kv, snd kv * m)%Qc) f) = match lookup String.eqb name f with Some v => Some (v * m)%Qc | None => None end.
Proof. induction f as [|[k v] f IH]; [reflexivity|]. cbn. destruct (String.eqb name k); [reflexivity|exact IH]. Qed.
Lemma hundred : Qc_of_Z 100 <> 0%Qc.
Proof. discriminate. Qed.
Lemma normalise_one f : total f = 1%Qc -> normalise f = Ok f.
Proof.
  intros H. unfold normalise. rewrite sum_total, H. replace (Qc_eqb 1 0) with false by reflexivity. f_equal.
  induction f as [|[k v] f IH] in |- *; [reflexivity|]. cbn. f_equal; [f_equal; field; discriminate|exact IH].
Qed.
Lemma set_spec name w f : NoDup (map fst f) -> In name (map fst f) -> w <> Qc_of_Z 100 -> others name f <> 0%Qc -> exists g,
  set_compound name w f = Ok g /\ total g = 1%Qc /\ get_compound name g = Ok w /\ map fst g = map fst f /\
  forall k v, k <> name -> lookup String.eqb k f = Some v -> lookup String.eqb k g = Some (v * ((1 - w / Qc_of_Z 100) / others name f))%Qc.
Proof.
  intros N I W O. unfold set_compound, qdivide. rewrite sum_others.
  destruct (Qc_eqb (w / Qc_of_Z 100) 1) eqn:E.
  { exfalso. apply Qc_eqb_spec in E. apply W. replace w with ((w / Qc_of_Z 100) * Qc_of_Z 100)%Qc by (field; exact hundred). rewrite E. ring. }
  destruct (Qc_eqb (others name f) 0) eqn:E0; [apply Qc_eqb_spec in E0; contradiction|]. cbn [bind].
  set (m := ((1 - w / Qc_of_Z 100) / others name f)%Qc).
  set (g0 := map (fun kv => (fst kv, snd kv * m)%Qc) f).
  assert (mem String.eqb name g0 = true) as -> by (apply mem_names; unfold g0; now rewrite scale_names).
  assert (T : total (assign String.eqb name (w / Qc_of_Z 100)%Qc g0) = 1%Qc).
  { rewrite total_assign by (unfold g0; rewrite scale_names; assumption). unfold g0. rewrite others_scale. unfold m. field. split; [exact hundred|exact O]. }
  rewrite normalise_one by exact T. eexists. split; [reflexivity|]. split; [exact T|]. split; [|split].
  - unfold get_compound. rewrite (lookup_assign_same _ str_dec). f_equal. field. exact hundred.
  - rewrite <- (scale_names f m). fold g0. assert (In name (map fst g0)) as I' by (unfold g0; now rewrite scale_names). clear - I'.
    induction g0 as [|[k v] g IH]; [destruct I'|]. cbn in *. destruct (String.eqb_spec name k) as [->|]; [reflexivity|]. cbn. f_equal. apply IH. destruct I'; [congruence|assumption].
  - intros k v Hk Hv. rewrite (lookup_assign_other _ str_dec) by congruence. unfold g0. rewrite lookup_scale, Hv. reflexivity.
Qed.
Lemma set_same name w f : NoDup (map fst f) -> total f = 1%Qc -> get_compound name f = Ok w -> w <> Qc_of_Z 100 -> set_compound name w f = Ok f.
Proof.
  intros N T G W. unfold get_compound in G. destruct (lookup String.eqb name f) as [x|] eqn:L; [|discriminate].
  assert (w = x * Qc_of_Z 100)%Qc as Ew by congruence.
  assert (X : (w / Qc_of_Z 100)%Qc = x) by (rewrite Ew; field; exact hundred).
  assert (I : In name (map fst f)) by (apply mem_names; unfold mem; now rewrite L).
  assert (A : assign String.eqb name x f = f).
  { clear - L. induction f as [|[k v] f IH]; [discriminate|]. cbn in *. destruct (String.eqb_spec name k) as [->|]; [assert (v = x) as -> by congruence; reflexivity|]. now rewrite IH. }
  assert (O : others name f = (1 - x)%Qc).
  { pose proof (total_assign name x f N I) as H. rewrite A, T in H. rewrite H. ring. }
  assert (Ox : (1 - x)%Qc <> 0%Qc).
  { intros H. apply W. rewrite Ew. replace x with 1%Qc; [ring|]. replace x with (1 - (1 - x))%Qc by ring. rewrite H. ring. }
  unfold set_compound, qdivide. rewrite sum_others, X, O.
  destruct (Qc_eqb x 1) eqn:E; [exfalso; apply Qc_eqb_spec in E; apply Ox; rewrite E; ring|].
  destruct (Qc_eqb (1 - x) 0) eqn:E0; [apply Qc_eqb_spec in E0; contradiction|]. cbn [bind].
  replace (map (fun kv => (fst kv, snd kv * ((1 - x) / (1 - x)))%Qc) f) with f.
  2:{ clear - Ox. induction f as [|[k v] f IH]; [reflexivity|]. cbn. f_equal; [f_equal; field; exact Ox|exact IH]. }
  assert (mem String.eqb name f = true) as -> by (apply mem_names; exact I). rewrite A. now apply normalise_one.
Qed.
Lemma set_errors name f w : set_compound name (Qc_of_Z 100) f = Err ValueError /\
  (w <> Qc_of_Z 100 -> others name f = 0%Qc -> set_compound name w f = Err ZeroDivisionError) /\
  (w <> Qc_of_Z 100 -> others name f <> 0%Qc -> ~ In name (map fst f) -> set_compound name w f = Err AttributeError).
Proof.
  assert (Y : w <> Qc_of_Z 100 -> Qc_eqb (w / Qc_of_Z 100) 1 = false).
  { intros W. destruct (Qc_eqb (w / Qc_of_Z 100) 1) eqn:E; [|reflexivity]. exfalso. apply Qc_eqb_spec in E. apply W. replace w with ((w / Qc_of_Z 100) * Qc_of_Z 100)%Qc by (field; exact hundred). rewrite E. ring. }
  split; [reflexivity|]. split.
  - intros W O. unfold set_compound, qdivide. rewrite sum_others, (Y W), O. reflexivity.
  - intros W O I. unfold set_compound, qdivide. rewrite sum_others, (Y W). destruct (Qc_eqb (others name f) 0) eqn:E0; [apply Qc_eqb_spec in E0; contradiction|]. cbn [bind].
    destruct (mem String.eqb name (map _ f)) eqn:E; [|reflexivity]. exfalso. apply I. apply mem_names in E. now rewrite scale_names in E.
Qed.
Lemma thickness_back name t d f : NoDup (map fst f) -> In name (map fst f) -> others name f <> 0%Qc -> d <> 0%Qc -> t <> d ->
  get_layerthickness (set_layerthickness d) = d /\
  exists g, set_tcompound name t (set_layerthickness d) f = Ok g /\ total g = 1%Qc /\ get_tcompound name (set_layerthickness d) g = Ok t.
Proof.
  intros N I O D T. assert (E : get_layerthickness (set_layerthickness d) = d) by (unfold get_layerthickness, set_layerthickness; field; discriminate).
  split; [exact E|]. unfold set_tcompound, get_tcompound, qdivide. rewrite E. destruct (Qc_eqb d 0) eqn:E0; [apply Qc_eqb_spec in E0; contradiction|]. cbn [bind].
  destruct (set_spec name (t / d * Qc_of_Z 100)%Qc f N I) as (g & G1 & G2 & G3 & _); [|exact O|].
  - intros H. apply T. assert ((t / d) = 1)%Qc as X.
    { replace (t / d)%Qc with ((t / d * Qc_of_Z 100) / Qc_of_Z 100)%Qc by (field; split; first [exact hundred|exact D]). rewrite H. field. exact hundred. }
    replace t with ((t / d) * d)%Qc by (field; exact D). rewrite X. ring.
  - exists g. split; [exact G1|]. split; [exact G2|]. rewrite G3. cbn [bind]. f_equal. field. split; first [exact hundred|exact D].
Qed.
Lemma full_thickness name d f : d <> 0%Qc -> set_tcompound name d (set_layerthickness d) f = Err ValueError.
Proof.
  intros D. assert (E : get_layerthickness (set_layerthickness d) = d) by (unfold get_layerthickness, set_layerthickness; field; discriminate).
  unfold set_tcompound, qdivide. rewrite E. destruct (Qc_eqb d 0) eqn:E0; [apply Qc_eqb_spec in E0; contradiction|]. cbn [bind].
  replace (d / d * Qc_of_Z 100)%Qc with (Qc_of_Z 100) by (field; exact D). apply (set_errors name f 0%Qc).
Qed.
Lemma above_hundred name w f k v : NoDup (map fst f) -> In name (map fst f) -> (Qc_of_Z 100 < w)%Qc -> (0 < others name f)%Qc -> k <> name -> lookup String.eqb k f = Some v -> (0 < v)%Qc ->
  exists g u, set_compound name w f = Ok g /\ lookup String.eqb k g = Some u /\ (u < 0)%Qc.
Proof.
  intros N I W O K L V. destruct (set_spec name w f N I) as (g & G1 & _ & _ & _ & G5).
  - intros ->. apply (Qclt_not_eq _ _ W). reflexivity.
  - intros E. rewrite E in O. apply (Qclt_not_eq _ _ O). reflexivity.
  - exists g. eexists. split; [exact G1|]. split; [exact (G5 k v K L)|].
    assert (o : (0 < / others name f)%Qc).
    { unfold Qclt, Qcinv, Q2Qc. cbn [this]. rewrite !Qred_correct. apply Qinv_lt_0_compat. exact O. }
    assert (x : (1 - w / Qc_of_Z 100 < 0)%Qc).
    { assert (w / Qc_of_Z 100 = w * / Qc_of_Z 100)%Qc as -> by reflexivity.
      assert (h : (0 < / Qc_of_Z 100)%Qc) by reflexivity.
      pose proof (Qcmult_lt_compat_r _ _ _ h W) as Y. replace (Qc_of_Z 100 * / Qc_of_Z 100)%Qc with 1%Qc in Y by (field; exact hundred).
      clear - Y. qclra. }
    unfold Qcdiv. pose proof (Qcmult_lt_compat_r _ _ _ o x) as Y1. replace (0 * / others name f)%Qc with 0%Qc in Y1 by ring.
    pose proof (Qcmult_lt_compat_r _ _ _ V Y1) as Y2. replace (0 * v)%Qc with 0%Qc in Y2 by ring. unfold Qcdiv in Y2. rewrite Qcmult_comm. exact Y2.
Qed.
Lemma get_missing name f d : ~ In name (map fst f) -> get_compound name f = Err KeyError /\ get_tcompound name d f = Err KeyError.
Proof.
  intros H. assert (L : lookup String.eqb name f = None).
  { destruct (lookup String.eqb name f) eqn:E; [|reflexivity]. exfalso. apply H, mem_names. unfold mem. now rewrite E. }
  unfold get_tcompound, get_compound. rewrite L. split; reflexivity.
Qed.
