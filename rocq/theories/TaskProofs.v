(* Proofs about tasks. *)
From Coq Require Import String.
From Verif Require Import TextProofs NameProofs ProcProofs ProcHistProofs TaskBaseProofs TaskSpec.
Close Scope string_scope.

Section T.
Context (md5 : string -> string) (rt : pyval -> pyval) (t : task) (f0 : file) (env0 : list (list (chars * node))).
Notation e := (t_entry t).
Notation kidlist := (list (chars * node)).
Context (W0 : wf f0) (E0 : entry f0 e).

Definition F (K : kidlist) : file := set_kids e K f0.

Lemma look0 : exists g, lookup e f0 = Some g /\ In (e, g) f0 /\ g_cls g = CEntry /\ kids e f0 = g_kids g.
Proof.
  destruct E0 as (g & I & C). exists g. pose proof (proj2 (lookup_in e g f0 (proj1 W0)) I) as L.
  split; [exact L|]. split; [exact I|]. split; [exact C|]. unfold kids. now rewrite L.
Qed.
Lemma F_eq K : F K = replace_at e (mkGroup CEntry K) f0.
Proof. destruct look0 as (g & L & _ & C & _). unfold F, set_kids. now rewrite L, C. Qed.
Lemma F_lookup K : lookup e (F K) = Some (mkGroup CEntry K).
Proof. destruct look0 as (g & L & _). rewrite F_eq. now apply (lookup_replace e _ g). Qed.
Lemma kids_F K : kids e (F K) = K.
Proof. unfold kids. now rewrite F_lookup. Qed.
Lemma set_F K K' : set_kids e K' (F K) = F K'.
Proof. unfold set_kids at 1. rewrite F_lookup. cbn [g_cls]. rewrite !F_eq. apply replace_twice. Qed.
Lemma F_0 : F (kids e f0) = f0.
Proof.
  destruct look0 as (g & L & _ & C & E). rewrite F_eq, E. apply replace_same. rewrite L. destruct g as [c k]. cbn in *. now subst.
Qed.
Lemma K0_sorted : keys_sorted (kids e f0).
Proof. destruct look0 as (g & _ & I & _ & ->). now apply (proj2 W0 e g). Qed.
Lemma F_in K e' g' : In (e', g') (F K) <-> (e' = e /\ g' = mkGroup CEntry K) \/ (e' <> e /\ In (e', g') f0).
Proof. destruct look0 as (g & _ & I & _). rewrite F_eq. apply (replace_in e _ g f0 (proj1 W0) I). Qed.
Lemma F_member K e' n x : member (F K) e' n x <-> (e' = e /\ In (n, x) K) \/ (e' <> e /\ member f0 e' n x).
Proof.
  unfold member. split.
  - intros (g & I & J). apply F_in in I as [[-> ->]|[N I]]; [now left|right]. split; [exact N|]. now exists g.
  - intros [[-> J]|[N (g & I & J)]].
    + exists (mkGroup CEntry K). split; [apply F_in; now left|exact J].
    + exists g. split; [apply F_in; now right|exact J].
Qed.
Lemma member_0 e' n x : member f0 e' n x <-> (e' = e /\ In (n, x) (kids e f0)) \/ (e' <> e /\ member f0 e' n x).
Proof. rewrite <- F_member, F_0. reflexivity. Qed.
Lemma F_entry K e' : entry (F K) e' <-> entry f0 e'.
Proof.
  unfold entry. split.
  - intros (g & I & C). apply F_in in I as [[-> _]|[_ I]]; [exact E0|now exists g].
  - intros (g & I & C). destruct (list_eq_dec ascii_dec e' e) as [->|N].
    + exists (mkGroup CEntry K). split; [apply F_in; now left|reflexivity].
    + exists g. split; [apply F_in; now right|exact C].
Qed.
Lemma F_wf K : keys_sorted K -> wf (F K).
Proof.
  intros S. split; [rewrite F_eq; apply replace_sorted, W0|]. intros e' g I.
  apply F_in in I as [[-> ->]|[_ I]]; [|now apply (proj2 W0 e')]. cbn. split; [exact S|congruence].
Qed.
Lemma used_F K n : n <> [] -> (used e (F K) n = false <-> forall x, ~ In (n, x) K).
Proof.
  intros N. unfold used. rewrite kids_F. destruct n as [|c n]; [congruence|]. rewrite <- lookup_none.
  destruct (lookup (c :: n) K); split; congruence.
Qed.
Lemma used_true K n x : n <> [] -> In (n, x) K -> used e (F K) n = true.
Proof.
  intros N I. destruct (used e (F K) n) eqn:U; [reflexivity|]. exfalso. exact (proj1 (used_F K n N) U x I).
Qed.

(* what others add *)
Definition names_ok (K : kidlist) : Prop := forall n x, In (n, x) K -> n <> [] /\ ~ In newline n.
Lemma add_other_F K nx : keys_sorted K -> fst nx <> [] -> exists K', add_other e (F K) nx = F K' /\ keys_sorted K' /\
  incl K K' /\ (forall y, In y K' -> In y K \/ y = nx).
Proof.
  intros S N. destruct nx as [n x]. cbn [fst] in N. unfold add_other. cbn [fst snd].
  destruct (used e (F K) n) eqn:U.
  - exists K. split; [reflexivity|]. split; [exact S|]. split; [apply incl_refl|]. now left.
  - exists (insert n x K). rewrite kids_F, set_F. split; [reflexivity|].
    assert (L : lookup n K = None) by (apply lookup_none; exact (proj1 (used_F K n N) U)).
    split; [now apply insert_sorted|]. split; [intros y I; apply insert_in; now right|].
    intros y I. apply insert_in in I. tauto.
Qed.
Lemma others_F b : Forall (fun nx => fst nx <> []) b -> forall K, keys_sorted K ->
  exists K', others e b (F K) = F K' /\ keys_sorted K' /\ incl K K' /\ (forall y, In y K' -> In y K \/ In y b).
Proof.
  induction 1 as [|nx b N _ IH]; intros K S.
  - exists K. split; [reflexivity|]. split; [exact S|]. split; [apply incl_refl|]. now left.
  - destruct (add_other_F K nx S N) as (K1 & E1 & S1 & I1 & J1).
    destruct (IH K1 S1) as (K2 & E2 & S2 & I2 & J2). exists K2.
    unfold others. cbn [fold_left]. rewrite E1. split; [exact E2|]. split; [exact S2|].
    split; [eapply incl_tran; eassumption|]. intros y I. apply J2 in I as [I|I]; [|right; now right].
    apply J1 in I as [I|I]; [now left|right]. left. now symmetry.
Qed.

(* ---- the invariant ---- *)
Context (sum : string) (fam : chars).
Context (Hsum : calc_checksum md5 (map d_sum (t_deps t)) (t_params t) = Ok sum).
Context (Hfam : first_name t fam) (Bt : no_braces (t_name t)) (Nt : ~ In newline (t_name t)).
Context (G0 : names_ok (kids e f0)) (C0 : all_complete md5 t f0) (Genv : good_env md5 t env0).

Lemma fam_start : nth_name (t_name t) 0 fam.
Proof.
  destruct (new_Name_0 (t_name t) Bt) as (s & E & H). unfold first_name in Hfam. rewrite prepare_name, E in Hfam.
  now injection Hfam as <-.
Qed.
Lemma fam_numbered : numbered fam.
Proof. pose proof (nth_related _ _ _ _ _ fam_start fam_start) as (p & d & d' & q & A & _). now exists p, d, q. Qed.
Lemma fam_no_braces : no_braces fam.
Proof. exact (nth_no_braces _ _ _ fam_start Bt). Qed.
Lemma fam_no_newline : ~ In newline fam.
Proof. exact (nth_no_newline _ _ _ fam_start Nt). Qed.
Lemma good_match_related s n : related fam s -> ~ In newline n -> (good_match s n <-> related fam n).
Proof.
  intros R N. pose proof (related_sym _ _ R) as R'.
  assert (Ns : numbered s) by (destruct R' as (p & d & d' & q & A & _); now exists p, d, q). split.
  - intros H. apply good_match_plain in H; [|exact (related_nonempty _ _ R)|exact N].
    apply same_related in H; [|exact Ns]. exact (related_trans _ _ _ R H).
  - intros H. right. left. apply same_related; [exact Ns|]. exact (related_trans _ _ _ R' H).
Qed.

Definition out (n : chars) (x : node) : Prop :=
  match x with Proc p => related fam n /\ proc_checksum md5 p = Ok (Some sum) | Other => False end.
Definition full (x : node) : Prop := match x with Proc p => complete t p | Other => True end.

Lemma output_iff K n p : ~ In newline n -> (is_output md5 t (F K) n p <-> In (n, Proc p) K /\ out n (Proc p)).
Proof.
  intros N. pose proof (good_match_related fam n (related_refl _ fam_numbered) N) as Q. split.
  - intros (M & fam' & sum' & A & B & C & D). apply F_member in M as [[_ M]|[M _]]; [|congruence].
    split; [exact M|]. unfold first_name in *. rewrite Hfam in A. injection A as <-. rewrite Hsum in B. injection B as <-.
    split; [now apply Q|exact D].
  - intros [M [A B]]. split; [apply F_member; left; now split|]. exists fam, sum.
    split; [exact Hfam|]. split; [exact Hsum|]. split; [now apply Q|exact B].
Qed.

Definition fromenv (y : chars * node) : Prop := exists b, In b env0 /\ In y b.
Definition inv (w : world) (K : kidlist) (T : option (chars * node)) : Prop :=
  w_file w = F K /\ keys_sorted K /\ incl (kids e f0) K /\ incl (w_env w) env0 /\
  Forall (all_complete md5 t) (w_hist w) /\
  (forall y, T = Some y -> In y K /\ fst y <> [] /\ ~ In newline (fst y) /\ (out (fst y) (snd y) -> full (snd y))) /\
  (forall y, In y K -> In y (kids e f0) \/ fromenv y \/ T = Some y).

Lemma env_good y : fromenv y -> good_other md5 t y.
Proof.
  intros (b & I & J). unfold good_env in Genv. rewrite Forall_forall in Genv. apply Genv in I. rewrite Forall_forall in I. now apply I.
Qed.
Lemma inv_names w K T : inv w K T -> names_ok K.
Proof.
  intros (_ & _ & _ & _ & _ & HT & H) n x I. destruct (H _ I) as [J|[J|J]].
  - now apply (G0 n x).
  - apply env_good in J as (A & B & _). now split.
  - apply HT in J as (_ & A & B & _). now split.
Qed.
Lemma sources_complete K T : 
  (forall y, T = Some y -> ~ In newline (fst y) /\ (out (fst y) (snd y) -> full (snd y))) ->
  (forall y, In y K -> In y (kids e f0) \/ fromenv y \/ T = Some y) -> all_complete md5 t (F K).
Proof.
  intros HT H n p O. assert (I : In (n, Proc p) K).
  { destruct O as (M & _). apply F_member in M as [[_ M]|[M _]]; [exact M|congruence]. }
  destruct (H _ I) as [J|[J|J]].
  - apply (C0 n). rewrite <- F_0. assert (N : ~ In newline n) by now apply (G0 n (Proc p)).
    apply output_iff; [exact N|]. apply output_iff in O; [|exact N]. split; [exact J|apply O].
  - assert (G := env_good _ J). destruct G as (A & B & C). cbn [fst snd] in A, B, C.
    destruct O as (_ & fam' & sum' & Q1 & Q2 & Q3 & Q4). exact (C p fam' sum' eq_refl Q1 Q2 Q3 Q4).
  - destruct (HT _ J) as [A B]. cbn [fst snd] in A, B. apply output_iff in O; [|exact A]. now apply B.
Qed.
Lemma inv_complete w K T : inv w K T -> all_complete md5 t (F K).
Proof.
  intros (_ & _ & _ & _ & _ & HT & H). apply (sources_complete K T); [|exact H].
  intros y E. apply HT in E as (_ & _ & A & B). now split.
Qed.
Lemma tick_inv w K T : inv w K T -> exists K', inv (tick e w) K' T /\ incl K K' /\
  w_env (tick e w) = tl (w_env w) /\ (w_env w = [] -> tick e w = w /\ K' = K).
Proof.
  intros V. unfold tick. destruct (w_env w) as [|b r] eqn:E.
  - exists K. rewrite E. split; [exact V|]. split; [apply incl_refl|]. split; [reflexivity|]. now intros _.
  - pose proof V as (A1 & A2 & A3 & A4 & A5 & A6 & A7). rewrite E in A4.
    assert (Ib : In b env0) by (apply A4; now left).
    destruct (others_F b) with (K := K) as (K' & Q1 & Q2 & Q3 & Q4); [|exact A2|].
    { apply Forall_forall. intros y J. apply (env_good y). now exists b. }
    exists K'. cbn [w_env tl]. rewrite A1, Q1.
    assert (H : forall y, In y K' -> In y (kids e f0) \/ fromenv y \/ T = Some y).
    { intros y I. apply Q4 in I as [I|I]; [now apply A7|]. right. left. now exists b. }
    split; [|split; [exact Q3|split; [reflexivity|discriminate]]].
    split; [reflexivity|]. split; [exact Q2|]. split; [eapply incl_tran; eassumption|].
    split; [intros y I; apply A4; now right|]. split.
    { cbn [w_hist]. constructor; [|exact A5]. apply (sources_complete K' T); [|exact H].
      intros y J. apply A6 in J as (_ & _ & J). exact J. }
    split; [|exact H]. intros y J. destruct (A6 y J) as (B1 & B2). split; [now apply Q3|exact B2].
Qed.
(* a change of the file by the task *)
Lemma put_inv w K T K' T' : inv w K T -> keys_sorted K' ->
  incl (kids e f0) K' ->
  (forall y, T' = Some y -> In y K' /\ fst y <> [] /\ ~ In newline (fst y) /\ (out (fst y) (snd y) -> full (snd y))) ->
  (forall y, In y K' -> In y (kids e f0) \/ fromenv y \/ T' = Some y) ->
  inv (put (F K') w) K' T'.
Proof.
  intros (A1 & A2 & A3 & A4 & A5 & A6 & A7) B2 B3 B6 B7.
  split; [reflexivity|]. split; [exact B2|]. split; [exact B3|]. split; [exact A4|].
  split; [|split; [exact B6|exact B7]]. cbn [w_hist put]. constructor; [|exact A5].
  apply (sources_complete K' T'); [|exact B7]. intros y J. apply B6 in J as (_ & _ & J). exact J.
Qed.

(* ---- the name of the output ---- *)
Definition tgt (o : obj) : Prop :=
  exists base s, no_braces base /\ n_locked (o_target o) = false /\ name_reset (o_target o) = new_Name base /\
    nth_name base 0 s /\ related fam s.
Lemma tgt_new : tgt (new_obj t).
Proof.
  exists (t_name t), fam. split; [exact Bt|]. split; [apply new_unlocked|]. split; [apply reset_new|].
  split; [exact fam_start|apply related_refl, fam_numbered].
Qed.
Lemma tgt_exists o b : tgt o -> tgt (mkObj (o_target o) b).
Proof. exact (fun H => H). Qed.

Lemma find_local K s : keys_sorted K -> related fam s -> names_ok K ->
  exists r, find_nxprocess md5 (F K) (Some e) s (map d_sum (t_deps t)) (t_params t) false = Some (Ok r) /\
  match r with
  | Some (e', n) => exists p, In (n, Proc p) K /\ out n (Proc p)
  | None => forall n x, In (n, x) K -> ~ out n x
  end.
Proof.
  intros S R Q. unfold find_nxprocess. rewrite Hsum.
  destruct (find_in_spec md5 s sum (iter_processes (F K) (Some e) false)) as (r & -> & H). exists r. split; [reflexivity|].
  assert (Sc : in_scope (F K) (Some e) false e).
  { split; [now apply F_entry|]. now intros _ h [= <-]. }
  destruct r as [[e' n]|].
  - destruct H as (p & l1 & l2 & El & [H1 H2] & _). exists p.
    assert (I : In (e', n, p) (iter_processes (F K) (Some e) false)) by (rewrite El; apply in_elt).
    apply iter_in in I as [_ I]; [|now apply F_wf]. cbn [fst snd] in H1, H2.
    assert (Ee : e' = e).
    { assert (I2 : In (e', n, p) (iter_processes (F K) (Some e) false)) by (rewrite El; apply in_elt).
      apply iter_in in I2 as [[_ I2] _]; [|now apply F_wf]. apply (I2 eq_refl e eq_refl). now apply F_entry. }
    subst e'. apply F_member in I as [[_ I]|[I _]]; [|congruence]. split; [exact I|].
    split; [|exact H2]. apply (good_match_related s n R); [now apply (Q n (Proc p))|exact H1].
  - intros n x I O. destruct x as [p|]; [|exact O]. destruct O as [O1 O2]. apply (H (e, n, p)).
    + apply iter_in; [now apply F_wf|]. split; [exact Sc|]. apply F_member. left. now split.
    + split; [|exact O2]. cbn [fst snd]. apply (good_match_related s n R); [now apply (Q n (Proc p))|exact O1].
Qed.

Lemma outputname_spec K o : keys_sorted K -> names_ok K -> tgt o ->
  exists n o', outputname md5 t (F K) o = Some (Ok (n, o')) /\ tgt o' /\ o_exists o' = o_exists o /\
    related fam n /\ name_str (o_target o') = Fmt n /\
    ((exists p, In (n, Proc p) K /\ out n (Proc p)) \/
     ((forall n' x, In (n', x) K -> ~ out n' x) /\ forall x, ~ In (n, x) K)).
Proof.
  intros S Q (base & s & B & U & Rs & N0 & R).
  destruct (new_Name_0 base B) as (s' & Es & N0'). assert (s' = s) as -> by exact (nth_name_fun _ _ _ _ N0' N0). clear N0'.
  destruct (find_local K s S R Q) as (r & Ef & Hr).
  unfold outputname. rewrite U, F_lookup, Rs, Es, Ef. cbv zeta. destruct r as [[e' n]|].
  - destruct Hr as (p & I & O). pose proof (proj1 O) as Rn.
    assert (Nn : numbered n) by (apply related_sym in Rn as (a & d & d' & q & A & _); now exists a, d, q).
    assert (Bn : no_braces n) by exact (related_no_braces _ _ Rn fam_no_braces).
    destruct (numbered_str n Nn Bn) as [En N0n]. cbn [o_target]. rewrite En.
    exists n, (mkObj (new_Name n) (o_exists o)). split; [reflexivity|]. split.
    { exists n, n. split; [exact Bn|]. split; [apply new_unlocked|]. split; [apply reset_new|]. now split. }
    split; [reflexivity|]. split; [exact Rn|]. split; [exact En|]. left. now exists p.
  - cbn [g_kids].
    destruct (first_free_ok (kid_exists (mkGroup CEntry K)) base ([] :: map fst K) (Datatypes.S (Datatypes.S (length K))) B
                (kids_finite (mkGroup CEntry K))) as (m & k & n & E1 & E2 & E3 & E4 & E5 & _).
    { cbn. rewrite map_length. lia. }
    rewrite E1. cbn [o_target]. rewrite E2. pose proof (first_free_keeps _ _ _ _ E1) as (M1 & M2 & M3).
    exists n, (mkObj m (o_exists o)). split; [reflexivity|]. split.
    { exists base, s. split; [exact B|]. split; [cbn; rewrite M3; apply new_unlocked|]. split; [|now split].
      cbn [o_target]. rewrite <- (reset_new base). unfold name_reset. rewrite M1, M2, M3. reflexivity. }
    split; [reflexivity|]. split; [exact (related_trans _ _ _ R (nth_related _ _ _ _ _ N0 E4))|]. split; [exact E2|].
    right. split; [exact Hr|]. destruct n as [|c n]; [exfalso; exact (nth_nonempty _ _ E4)|].
    exact (kid_exists_spec (mkGroup CEntry K) c n S E5).
Qed.
Definition locked (o : obj) (n : chars) : Prop := n_locked (o_target o) = true /\ name_str (o_target o) = Fmt n.
Lemma outputname_locked f o n : locked o n -> outputname md5 t f o = Some (Ok (n, o)).
Proof. intros [A B]. unfold outputname. now rewrite A, B. Qed.

Definition done (K : kidlist) : Prop := exists n x, In (n, x) K /\ out n x.
Lemma output_exists_spec K o : keys_sorted K -> names_ok K -> tgt o ->
  exists b o', output_exists md5 t (F K) o = Some (Ok (b, o')) /\ tgt o' /\ o_exists o' = o_exists o /\ (b = true <-> done K).
Proof.
  intros S Q G. destruct (outputname_spec K o S Q G) as (n & o' & E & G' & X & R & _ & H). unfold output_exists. rewrite E.
  exists (used e (F K) n), o'. split; [reflexivity|]. split; [exact G'|]. split; [exact X|].
  pose proof (related_nonempty _ _ R) as Nn. destruct H as [(p & I & O)|[H1 H2]].
  - rewrite (used_true K n _ Nn I). split; [intros _|reflexivity]. now exists n, (Proc p).
  - rewrite (proj2 (used_F K n Nn) H2). split; [discriminate|]. intros (n' & x & I & O). now destruct (H1 n' x I).
Qed.

(* ---- the temporary output ---- *)
Notation sums := (map d_sum (t_deps t)).
Notation rand := (good_random md5 t f0 env0).
Lemma rand_facts r : rand r -> r <> [] /\ ~ In newline r /\ ~ related fam r /\ (forall x, ~ fromenv (r, x)).
Proof.
  intros ((N & _) & Nl & Nf & _ & _ & Ne). split; [exact N|]. split; [exact Nl|]. split.
  - intros R. apply (Nf fam Hfam). apply same_related; [exact fam_numbered|exact R].
  - intros x (b & I & J). now apply (Ne b x I).
Qed.
Lemma rand_nohit w K r : rand r -> inv w K None -> forall e' n p, entry (F K) e' -> member (F K) e' n (Proc p) ->
  good_sum md5 p sum -> ~ good_match r n.
Proof.
  intros R V e' n p En M G. pose proof R as (_ & _ & _ & H1 & H2 & _). apply F_entry in En.
  apply F_member in M as [[-> I]|[N M]].
  - pose proof V as (_ & _ & _ & _ & _ & _ & H). destruct (H _ I) as [J|[(b & J & J')|J]]; [| |discriminate].
    + apply (H1 e n p sum Hsum En); [|exact G]. apply member_0. left. now split.
    + exact (H2 b n p sum Hsum J J' G).
  - exact (H1 e' n p sum Hsum En M G).
Qed.
Definition tempproc (h : string) (l : list Z) : proc := mkProc (Some sum) sums (Some h) l.

Context (St : stable md5 rt (t_params t)).
Lemma enter_new w K r : rand r -> inv w K None -> (forall x, ~ In (r, x) K) -> exists h,
  nxprocess md5 rt (F K) (Some e) r sums (t_params t) true true =
  Some (F (insert r (Proc (tempproc h [])) K), Ok (e, r)).
Proof.
  intros R V U. pose proof V as (_ & S & _). destruct (rand_facts r R) as (N & _).
  destruct (set_config_stable md5 rt sums (t_params t) sum St Hsum) as (h & Hc). exists h.
  unfold nxprocess, find_nxprocess. rewrite Hsum.
  destruct (find_in_spec md5 r sum (iter_processes (F K) (Some e) true)) as (o & -> & So). destruct o as [[e' n']|].
  { exfalso. destruct So as (p & l1 & l2 & El & [H1 H2] & _).
    assert (I : In (e', n', p) (iter_processes (F K) (Some e) true)) by (rewrite El; apply in_elt).
    apply iter_in in I as [[I1 _] I2]; [|now apply F_wf]. exact (rand_nohit w K r R V e' n' p I1 I2 H2 H1). }
  unfold nxentry, first_entry. rewrite F_lookup. cbn [is_entry g_cls]. rewrite F_lookup.
  assert (X : kid_exists (mkGroup CEntry K) r = false).
  { unfold kid_exists. destruct r as [|c r]; [congruence|]. cbn [g_kids]. now rewrite (proj2 (lookup_none (c :: r) K) U). }
  unfold new_path. rewrite X, Hc. unfold add_kid. rewrite F_lookup. cbn [g_cls g_kids].
  rewrite !F_eq, replace_twice. reflexivity.
Qed.
Lemma insert_inv w K r x : inv w K None -> (forall z, ~ In (r, z) K) -> r <> [] -> ~ In newline r -> (out r x -> full x) ->
  inv (put (F (insert r x K)) w) (insert r x K) (Some (r, x)).
Proof.
  intros V U N Nl O. pose proof V as (_ & S & I0 & _ & _ & _ & H). apply (put_inv w K None); [exact V| | | |].
  - apply insert_sorted; [exact S|now apply lookup_none].
  - intros y I. apply insert_in. right. now apply I0.
  - intros y [= <-]. split; [apply insert_in; now left|]. now split.
  - intros y I. apply insert_in in I as [->|I]; [now right; right|]. destruct (H y I) as [J|[J|J]]; [now left|now right; left|discriminate].
Qed.
Lemma enter_spec randoms : Forall rand randoms -> forall w K, inv w K None ->
  (exists r, In r randoms /\ forall x, ~ In (r, x) (kids e f0)) ->
  exists w' K' r h, enter md5 rt t randoms w = Some (w', Ok (e, r)) /\ In r randoms /\ rand r /\
    (forall x, ~ In (r, x) (kids e f0)) /\ inv w' K' (Some (r, Proc (tempproc h []))).
Proof.
  induction 1 as [|r rest R _ IH]; intros w K V (r0 & I0 & U0); [destruct I0|].
  cbn [enter]. destruct (tick_inv w K None V) as (K1 & V1 & _). set (w1 := tick e w) in *. clearbody w1.
  pose proof V1 as (Ef & S1 & I1 & _). rewrite Ef. destruct (rand_facts r R) as (N & Nl & Nr & Ne).
  destruct (lookup r K1) as [x|] eqn:L.
  - apply (lookup_in r x K1 S1) in L.
    rewrite (nxprocess_occupied md5 rt (F K1) e r sums (t_params t) true true sum x); cycle 1.
    { now apply F_wf. } { now apply F_entry. } { exact N. } { exact Hsum. }
    { apply F_member. left. now split. } { now left. }
    { intros e' n' p' [Q1 _] Q2 Q3. exact (rand_nohit w1 K1 r R V1 e' n' p' Q1 Q2 Q3). }
    destruct (IH (put (F K1) w1) K1) as (w2 & K2 & r2 & h & A & B & C).
    + pose proof V1 as (_ & _ & _ & _ & _ & HT & H). now apply (put_inv w1 K1 None).
    + destruct I0 as [<-|I0]; [|now exists r0]. exfalso. pose proof V1 as (_ & _ & _ & _ & _ & _ & H).
      destruct (H _ L) as [J|[J|J]]; [now apply (U0 x)|now apply (Ne x)|discriminate].
    + exists w2, K2, r2, h. split; [exact A|]. split; [now right|exact C].
  - assert (U : forall x, ~ In (r, x) K1) by now apply lookup_none.
    destruct (enter_new w1 K1 r R V1 U) as (h & ->). exists (put (F (insert r (Proc (tempproc h [])) K1)) w1).
    exists (insert r (Proc (tempproc h [])) K1), r, h. split; [reflexivity|]. split; [now left|]. split; [exact R|]. split.
    + intros x I. apply (U x). now apply I1.
    + apply insert_inv; [exact V1|exact U|exact N|exact Nl|]. intros [Q _]. contradiction.
Qed.

Section Random.
Context (r : chars) (Rr : rand r) (Ur : forall x, ~ In (r, x) (kids e f0)).
Lemma r_not_out x : ~ out r x.
Proof. destruct (rand_facts r Rr) as (_ & _ & N & _). destruct x; [|exact (fun H => H)]. now intros [H _]. Qed.
(* only the temporary node has the random name *)
Lemma r_only w K T x : inv w K T -> In (r, x) K -> T = Some (r, x).
Proof.
  intros (_ & _ & _ & _ & _ & _ & H) I. destruct (rand_facts r Rr) as (_ & _ & _ & Ne).
  destruct (H _ I) as [J|[J|J]]; [now destruct (Ur x)|now destruct (Ne x)|exact J].
Qed.
Lemma write_step w K h l v : inv w K (Some (r, Proc (tempproc h l))) ->
  exists K', write_kid e r v (w_file w) = F K' /\
    inv (put (F K') w) K' (Some (r, Proc (tempproc h (l ++ [v])))).
Proof.
  intros V. pose proof V as (Ef & S & I0 & _ & _ & HT & H). destruct (HT _ eq_refl) as (It & Nt' & Nlt & _). cbn [fst snd] in *.
  unfold write_kid. rewrite Ef, kids_F. rewrite (proj2 (lookup_in r _ K S) It). cbn [p_stored p_deps p_conf p_data tempproc].
  rewrite set_F. eexists. split; [reflexivity|].
  set (x := Proc (mkProc (Some sum) sums (Some h) (l ++ [v]))).
  pose proof (replace_in r x _ K S It) as Q. apply (put_inv w K _ _ _ V).
  - now apply replace_sorted.
  - intros [n y] I. apply Q. right. split; [|now apply I0]. intros ->. now apply (Ur y).
  - intros y [= <-]. cbn [fst snd]. split; [apply Q; left; now split|]. split; [exact Nt'|]. split; [exact Nlt|].
    intros O. now destruct (r_not_out _ O).
  - intros [n y] I. apply Q in I as [[-> ->]|[N I]]; [now right; right|].
    destruct (H _ I) as [J|[J|[= <- <-]]]; [now left|now right; left|congruence].
Qed.
Lemma write_all_spec h l' : forall w K l, inv w K (Some (r, Proc (tempproc h l))) ->
  exists K', inv (write_all t (e, r) l' w) K' (Some (r, Proc (tempproc h (l ++ l')))).
Proof.
  induction l' as [|v l' IH]; intros w K l V; cbn [write_all fst snd].
  - exists K. now rewrite app_nil_r.
  - destruct (tick_inv w K _ V) as (K1 & V1 & _). destruct (write_step _ _ _ _ v V1) as (K2 & E2 & V2).
    rewrite E2. destruct (IH _ _ _ V2) as (K3 & V3). exists K3. now rewrite <- app_assoc in V3.
Qed.
Lemma remove_spec w K x : inv w K (Some (r, x)) -> exists K', inv (remove_temp t (e, r) w) K' None /\ incl (remove_at r K) K'.
Proof.
  intros V. unfold remove_temp. cbn [fst snd]. destruct (tick_inv w K _ V) as (K1 & V1 & I1 & _).
  pose proof V1 as (Ef & S & I0 & _ & _ & HT & H). unfold remove_kid. rewrite Ef, kids_F, set_F.
  exists (remove_at r K1). pose proof V as (_ & SK & _). split.
  - apply (put_inv _ K1 _ _ _ V1).
    + now apply remove_sorted.
    + intros [n y] I. apply remove_in; [exact S|]. split; [|now apply I0]. intros ->. now apply (Ur y).
    + discriminate.
    + intros [n y] I. apply remove_in in I as [N I]; [|exact S].
      destruct (H _ I) as [J|[J|[= <- _]]]; [now left|now right; left|congruence].
  - intros [n y] I. apply remove_in in I as [N I]; [|exact SK]. apply remove_in; [exact S|]. split; [exact N|now apply I1].
Qed.
(* writing after the removal leaves a group without anything in it *)
Lemma write_after l : forall w K T, inv w K T -> T = None \/ T = Some (r, Other) ->
  exists K' T', inv (write_all t (e, r) l w) K' T' /\ (T' = None \/ T' = Some (r, Other)) /\ (T' = None -> T = None /\ l = []).
Proof.
  induction l as [|v l IH]; intros w K T V HT; cbn [write_all fst snd]; [exists K, T; exact (conj V (conj HT (fun Z => conj Z eq_refl)))|].
  destruct (tick_inv w K T V) as (K1 & V1 & _). pose proof V1 as (Ef & S & I0 & _ & _ & HT1 & H1).
  assert (X : exists K2, write_kid e r v (w_file (tick e w)) = F K2 /\ inv (put (F K2) (tick e w)) K2 (Some (r, Other))).
  { unfold write_kid. rewrite Ef, kids_F. destruct HT as [E | E]; subst T.
    - assert (U : forall x, ~ In (r, x) K1) by (intros x I; now apply (r_only _ _ _ _ V1) in I).
      rewrite (proj2 (lookup_none r K1) U), set_F. eexists. split; [reflexivity|].
      destruct (rand_facts r Rr) as (N & Nl & _). now apply insert_inv.
    - destruct (HT1 _ eq_refl) as (It & _). rewrite (proj2 (lookup_in r _ K1 S) It). exists K1. split; [reflexivity|].
      now apply (put_inv _ K1 _ _ _ V1). }
  destruct X as (K2 & -> & V2). destruct (IH _ _ _ V2 (or_intror eq_refl)) as (K3 & T3 & A & B & C).
  exists K3, T3. split; [exact A|]. split; [exact B|]. intros Z. apply C in Z as [Z _]. discriminate.
Qed.

Lemma rename_spec h : forall fuel w K o, inv w K (Some (r, Proc (tempproc h (t_chunks t)))) -> tgt o ->
  (2 + length (w_env w) <= fuel)%nat ->
  exists w' o' K', rename_temp md5 t fuel (e, r) w o = Some (w', Ok o') /\ o_exists o' = o_exists o /\
    ((exists n, inv w' K' (Some (n, Proc (tempproc h (t_chunks t)))) /\ out n (Proc (tempproc h (t_chunks t))) /\
        (forall x, ~ In (n, x) (kids e f0)) /\ locked o' n) \/
     (inv w' K' None /\ done K' /\ tgt o')).
Proof.
  set (x := Proc (tempproc h (t_chunks t))). induction fuel as [|fuel IH]; intros w K o V G L; [lia|].
  destruct (rand_facts r Rr) as (Nr & Nlr & NR & _).
  cbn [rename_temp fst snd].
  destruct (tick_inv w K _ V) as (K1 & V1 & I1 & L1 & _). set (w1 := tick e w) in *. clearbody w1.
  pose proof V1 as (Ef1 & S1 & _ & _ & _ & HT1 & _). destruct (HT1 _ eq_refl) as (T1 & _).
  rewrite Ef1, (used_true K1 r x Nr T1). cbn [negb].
  destruct (tick_inv w1 K1 _ V1) as (K2 & V2 & I2 & L2 & _). set (w2 := tick e w1) in *. clearbody w2.
  pose proof V2 as (Ef2 & S2 & _). rewrite Ef2.
  destruct (outputname_spec K2 o S2 (inv_names _ _ _ V2) G) as (n & o2 & E2 & G2 & X2 & R2 & N2 & H2). rewrite E2.
  destruct (tick_inv w2 K2 _ V2) as (K3 & V3 & I3 & L3 & Z3). set (w3 := tick e w2) in *. clearbody w3.
  pose proof V3 as (Ef3 & S3 & I03 & _ & _ & HT3 & H3). destruct (HT3 _ eq_refl) as (T3 & _).
  pose proof (related_nonempty _ _ R2) as Nn. assert (Nrn : n <> r) by (intros ->; contradiction).
  unfold rename_kid. rewrite Ef3. destruct (used e (F K3) n) eqn:U3.
  - (* the name is taken *)
    destruct (tick_inv w3 K3 _ V3) as (K4 & V4 & I4 & L4 & Z4). set (w4 := tick e w3) in *. clearbody w4.
    pose proof V4 as (Ef4 & S4 & _). rewrite Ef4.
    destruct (output_exists_spec K4 o2 S4 (inv_names _ _ _ V4) G2) as (b & o4 & E4 & G4 & X4 & B4). rewrite E4. destruct b.
    + (* done by someone else *)
      destruct (proj1 B4 eq_refl) as (n5 & x5 & In5 & O5).
      destruct (remove_spec w4 K4 _ V4) as (K5 & V5 & I5). set (w5 := remove_temp t (e, r) w4) in *. clearbody w5.
      destruct fuel as [|fuel]; [lia|]. clear IH. cbn [rename_temp fst snd].
      destruct (tick_inv w5 K5 _ V5) as (K6 & V6 & I6 & _). set (w6 := tick e w5) in *. clearbody w6.
      pose proof V6 as (Ef6 & _). rewrite Ef6.
      assert (U6 : used e (F K6) r = false).
      { apply used_F; [exact Nr|]. intros z J. apply (r_only _ _ _ _ V6) in J. discriminate. }
      rewrite U6. cbn [negb]. exists w6, o4, K6. split; [reflexivity|]. split; [congruence|]. right. split; [exact V6|].
      split; [|exact G4]. exists n5, x5. split; [|exact O5]. apply I6, I5. apply remove_in; [exact S4|]. split; [|exact In5].
      intros ->. now apply (r_not_out x5).
    + (* the name was taken in between: something was added *)
      assert (ND : ~ done K4) by (intros Q; now apply B4 in Q).
      destruct H2 as [(p & Ip & Op)|[_ Fr]].
      { exfalso. apply ND. exists n, (Proc p). split; [apply I4, I3, Ip|exact Op]. }
      assert (Hne : w_env w2 <> []).
      { intros Q. destruct (Z3 Q) as [_ QK]. rewrite QK in U3. rewrite (proj2 (used_F K2 n Nn) Fr) in U3. discriminate. }
      destruct (IH w4 K4 o4 V4 G4) as (w' & o' & K' & A & B & C).
      { assert (Tl : forall l : list kidlist, (length (tl l) <= length l)%nat) by (intros [|? ?]; cbn; lia).
        pose proof (Tl (w_env w)) as T1'. pose proof (Tl (w_env w1)) as T2'. pose proof (Tl (w_env w3)) as T4'.
        rewrite <- L1 in T1'. rewrite <- L2 in T2'. rewrite <- L4 in T4'.
        assert (T3' : (length (w_env w3) < length (w_env w2))%nat).
        { rewrite L3. destruct (w_env w2); [congruence|]. cbn [tl length]. lia. }
        lia. }
      exists w', o', K'. split; [exact A|]. split; [congruence|exact C].
  - (* published *)
    assert (Fr3 : forall z, ~ In (n, z) K3) by exact (proj1 (used_F K3 n Nn) U3).
    rewrite kids_F, (proj2 (lookup_in r _ K3 S3) T3). cbv zeta. unfold remove_kid. rewrite kids_F, set_F, kids_F, set_F.
    assert (Sr := remove_sorted r K3 S3). pose proof (remove_in r K3 S3) as Qr.
    assert (Fr4 : forall z, ~ In (n, z) (remove_at r K3)) by (intros z J; apply Qr in J as [_ J]; now apply (Fr3 z)).
    assert (O : out n x) by (split; [exact R2|reflexivity]).
    eexists. eexists. exists (insert n x (remove_at r K3)). split; [reflexivity|]. split; [exact X2|]. left. exists n. split.
    + apply (put_inv w3 K3 _ _ _ V3).
      * apply insert_sorted; [exact Sr|now apply lookup_none].
      * intros [m y] J. apply insert_in. right. apply Qr. split; [|now apply I03]. intros ->. now apply (Ur y).
      * intros y [= <-]. cbn [fst snd]. split; [apply insert_in; now left|]. split; [exact Nn|].
        split; [|intros _; reflexivity]. exact (related_no_newline _ _ R2 fam_no_newline).
      * intros [m y] J. apply insert_in in J as [J|J]; [right; right; now rewrite J|].
        apply Qr in J as [N J]. destruct (H3 _ J) as [Q|[Q|[= <- _]]]; [now left|now right; left|congruence].
    + split; [exact O|]. split; [intros z J; apply (Fr3 z); now apply I03|]. split; [reflexivity|exact N2].
Qed.
End Random.

Lemma done_incl K K' : incl K K' -> done K -> done K'.
Proof. intros I (n & x & J & O). exists n, x. split; [now apply I|exact O]. Qed.
Lemma done_dec K : keys_sorted K -> names_ok K -> done K \/ ~ done K.
Proof.
  intros S Q. destruct (output_exists_spec K (new_obj t) S Q tgt_new) as (b & o' & _ & _ & _ & H). destruct b; [left; now apply H|right].
  intros D. now apply H in D.
Qed.
Lemma exists_spec K o : keys_sorted K -> names_ok K -> tgt o -> o_exists o = false ->
  exists b o', exists_ md5 t (F K) o = Some (Ok (b, o')) /\ tgt o' /\ o_exists o' = b /\ (b = true <-> done K).
Proof.
  intros S Q G X. destruct (output_exists_spec K o S Q G) as (b & o' & E & G' & X' & H). unfold exists_. rewrite X, E.
  exists b, (mkObj (o_target o') b). split; [reflexivity|]. split; [exact G'|]. now split.
Qed.

Definition continues : Prop := exists k, t_fail t = Signal k true /\ skipn k (t_chunks t) <> [].
Lemma run_spec randoms w K o : inv w K None -> tgt o -> o_exists o = false -> deps_done t (w_file w) = true ->
  Forall rand randoms -> (exists r, In r randoms /\ forall x, ~ In (r, x) (kids e f0)) ->
  exists K1, inv (tick e w) K1 None /\ incl K K1 /\
  exists w' o' K' oc, run md5 rt t randoms w o = Some (w', o', oc) /\
  ((done K1 /\ w' = tick e w /\ K' = K1 /\ oc = AlreadyDone /\ tgt o' /\ o_exists o' = true) \/
   (~ done K1 /\ o_exists o' = false /\ t_fail t = NoFailure /\
      oc = match t_default t with Some x => Raised x | None => Finished end /\
      ((exists n h, inv w' K' (Some (n, Proc (tempproc h (t_chunks t)))) /\ out n (Proc (tempproc h (t_chunks t))) /\
          (forall x, ~ In (n, x) (kids e f0)) /\ locked o' n) \/
       (inv w' K' None /\ done K' /\ tgt o'))) \/
   (~ done K1 /\ o_exists o' = false /\ t_fail t <> NoFailure /\ oc = Finished /\ tgt o' /\
      exists T, inv w' K' T /\ (T = None \/ (continues /\ exists r, In r randoms /\ (forall x, ~ In (r, x) (kids e f0)) /\ T = Some (r, Other))))).
Proof.
  intros V G X D R U. unfold run. rewrite D. destruct (tick_inv w K None V) as (K1 & V1 & I1 & _). set (w1 := tick e w) in *. clearbody w1.
  exists K1. split; [exact V1|]. split; [exact I1|]. pose proof V1 as (Ef1 & S1 & _). rewrite Ef1.
  destruct (exists_spec K1 o S1 (inv_names _ _ _ V1) G X) as (b & o1 & E1 & G1 & X1 & B1). rewrite E1. destruct b.
  { exists w1, o1, K1, AlreadyDone. split; [reflexivity|]. left. split; [now apply B1|].
    exact (conj eq_refl (conj eq_refl (conj eq_refl (conj G1 X1)))). }
  assert (ND : ~ done K1) by (intros Q; now apply B1 in Q). 
  pose proof (enter_spec randoms R w1 K1 V1 U) as Ent.
  destruct Ent as (w2 & K2 & r & h & Ee & Ir & Rr & Ur & V2). rewrite Ee. unfold execute. destruct (t_fail t) as [|k|k c] eqn:Ft.
  - destruct (write_all_spec r Rr Ur h (t_chunks t) _ _ _ V2) as (K3 & V3). cbn [app] in V3.
    unfold finish. destruct (rename_spec r Rr Ur h _ _ _ o1 V3 G1 (le_n _)) as (w4 & o4 & K4 & E4 & X4 & H4).
    cbn [Nat.add] in E4. rewrite E4.
    exists w4, o4, K4. eexists. split; [reflexivity|]. right. left. split; [exact ND|]. split; [congruence|].
    split; [reflexivity|]. split; [reflexivity|]. destruct H4 as [(n & H4)|H4]; [left; now exists n, h|now right].
  - destruct (write_all_spec r Rr Ur h (firstn k (t_chunks t)) _ _ _ V2) as (K3 & V3).
    destruct (remove_spec r Ur _ _ _ V3) as (K4 & V4 & _). eexists _, o1, K4, Finished. split; [reflexivity|].
    right. right. split; [exact ND|]. split; [exact X1|]. split; [discriminate|]. split; [reflexivity|]. split; [exact G1|].
    exists None. split; [exact V4|now left].
  - destruct (write_all_spec r Rr Ur h (firstn k (t_chunks t)) _ _ _ V2) as (K3 & V3).
    destruct (remove_spec r Ur _ _ _ V3) as (K4 & V4 & _). destruct c.
    + destruct (write_after r Rr Ur (skipn k (t_chunks t)) _ _ _ V4 (or_introl eq_refl)) as (K5 & T5 & V5 & H5 & Z5).
      eexists _, o1, K5, Finished. split; [reflexivity|].
      right. right. split; [exact ND|]. split; [exact X1|]. split; [discriminate|]. split; [reflexivity|]. split; [exact G1|].
      exists T5. split; [exact V5|]. destruct H5 as [H5|H5]; [now left|right]. split; [|now exists r].
      exists k. split; [exact Ft|]. intros Q. subst T5. rewrite Q in V5. cbn [write_all] in V5.
      pose proof V5 as (F5 & S5 & _ & _ & _ & HT5 & _). pose proof V4 as (F4 & S4 & _).
      rewrite F4 in F5. apply (f_equal (kids e)) in F5. rewrite !kids_F in F5. subst K5.
      destruct (HT5 _ eq_refl) as (J & _). apply (r_only r Rr Ur _ _ _ _ V4) in J. discriminate.
    + eexists _, o1, K4, Finished. split; [reflexivity|].
      right. right. split; [exact ND|]. split; [exact X1|]. split; [discriminate|]. split; [reflexivity|]. split; [exact G1|].
      exists None. split; [exact V4|now left].
Qed.

Lemma run_locked randoms w o n x : deps_done t (w_file w) = true -> locked o n -> o_exists o = false -> w_env w = [] ->
  n <> [] -> member (w_file w) e n x -> keys_sorted (w_file w) -> exists o', run md5 rt t randoms w o = Some (w, o', AlreadyDone).
Proof.
  intros D L X E N (g & I & J) S. unfold run. rewrite D. unfold tick. rewrite E. unfold exists_, output_exists. rewrite X, (outputname_locked _ _ _ L).
  assert (U : used e (w_file w) n = true).
  { unfold used, kids. rewrite (proj2 (lookup_in e g _ S) I). destruct n as [|c n]; [congruence|].
    destruct (lookup (c :: n) (g_kids g)) eqn:Q; [reflexivity|]. now destruct (proj1 (lookup_none _ _) Q x). }
  rewrite U. eexists. reflexivity.
Qed.
Lemma inv_start : inv (start f0 env0) (kids e f0) None.
Proof.
  split; [symmetry; exact F_0|]. split; [exact K0_sorted|]. split; [apply incl_refl|]. split; [apply incl_refl|].
  split; [constructor; [exact C0|constructor]|]. split; [discriminate|]. now left.
Qed.
Lemma inv_extends w K T : inv w K T -> extends f0 (w_file w).
Proof.
  intros (-> & _ & I & _) e' n x M. apply F_member. apply member_0 in M as [[-> M]|M]; [left|now right]. split; [reflexivity|now apply I].
Qed.
Lemma inv_members w K T : inv w K T -> forall e' n x, member (w_file w) e' n x ->
  member f0 e' n x \/ (e' = e /\ fromenv (n, x)) \/ (e' = e /\ T = Some (n, x)).
Proof.
  intros (-> & _ & _ & _ & _ & _ & H) e' n x M. apply F_member in M as [[-> M]|[_ M]]; [|now left].
  destruct (H _ M) as [J|[J|J]]; [|now right; left|now right; right]. left. apply member_0. left. now split.
Qed.
Lemma inv_same w K : env0 = [] -> inv w K None -> w_file w = f0 /\ K = kids e f0.
Proof.
  intros E (-> & S & I & _ & _ & _ & H). assert (K = kids e f0) as ->; [|split; [exact F_0|reflexivity]].
  apply sorted_ext; [exact S|exact K0_sorted|]. intros y. split; [|apply I].
  intros J. apply H in J as [J|[(b & J & _)|J]]; [exact J| |discriminate]. rewrite E in J. destruct J.
Qed.
Lemma done_output K : names_ok K -> (done K <-> exists n p, is_output md5 t (F K) n p).
Proof.
  intros Q. split.
  - intros (n & x & I & O). destruct x as [p|]; [|destruct O]. exists n, p. apply output_iff; [now apply (Q n (Proc p))|now split].
  - intros (n & p & O). assert (I : In (n, Proc p) K).
    { destruct O as (M & _). apply F_member in M as [[_ M]|[M _]]; [exact M|congruence]. }
    apply output_iff in O as [_ O]; [|now apply (Q n (Proc p))]. now exists n, (Proc p).
Qed.
End T.
