(* Proofs about shells and fluorescence lines. *)
From Coq Require Import String Ascii DecimalString DecimalNat.
From Verif Require Import Base QcTac ShelllineModel ShelllineSpec.
Local Open Scope string_scope.
Local Open Scope list_scope.
Local Open Scope nat_scope.

(* ---- order on strings ---- *)
Lemma compare_refl s : String.compare s s = Eq.
Proof.
  induction s as [|c s IH]; [reflexivity|]. cbn. unfold Ascii.compare. rewrite N.compare_refl. exact IH.
Qed.
Lemma leb_trans a b c : String.leb a b = true -> String.leb b c = true -> String.leb a c = true.
Proof.
  unfold String.leb. revert b c. induction a as [|x a IH]; intros b c; [intros _ _; destruct c; reflexivity|].
  destruct b as [|y b]; [cbn; discriminate|]. destruct c as [|z c]; [intros _; cbn; discriminate|].
  cbn. unfold Ascii.compare.
  destruct (N.compare_spec (N_of_ascii x) (N_of_ascii y)) as [E1|E1|E1]; try discriminate;
  destruct (N.compare_spec (N_of_ascii y) (N_of_ascii z)) as [E2|E2|E2]; try discriminate.
  - rewrite E1, E2, N.compare_refl. apply IH.
  - intros _ _. rewrite E1. apply N.compare_lt_iff in E2. now rewrite E2.
  - intros _ _. rewrite <- E2. apply N.compare_lt_iff in E1. now rewrite E1.
  - intros _ _. assert (N_of_ascii x < N_of_ascii z)%N as E3 by lia. apply N.compare_lt_iff in E3. now rewrite E3.
Qed.
Lemma leb_flip a b : String.leb a b = false -> String.leb b a = true.
Proof. intros H. destruct (String.leb_total a b); [congruence|assumption]. Qed.

Lemma insert_perm s l : Permutation (insert s l) (s :: l).
Proof.
  induction l as [|x l IH]; cbn; [apply Permutation_refl|]. destruct (String.leb s x); [apply Permutation_refl|].
  eapply Permutation_trans; [apply perm_skip, IH|apply perm_swap].
Qed.
Lemma sorted_perm l : Permutation (sorted l) l.
Proof.
  induction l as [|s l IH]; cbn; [constructor|]. eapply Permutation_trans; [apply insert_perm|]. now apply perm_skip.
Qed.
Lemma insert_ascending s l : ascending l -> ascending (insert s l).
Proof.
  unfold ascending. induction l as [|x l IH]; intros H; cbn; [repeat constructor|].
  inversion H as [|? ? H1 H2]; subst. destruct (String.leb s x) eqn:E.
  - constructor; [assumption|]. constructor; [assumption|]. rewrite Forall_forall in *. intros y Hy. eapply leb_trans; eauto.
  - constructor; [now apply IH|]. rewrite Forall_forall in *. intros y Hy.
    apply (Permutation_in _ (insert_perm s l)) in Hy. destruct Hy as [<-|Hy]; [now apply leb_flip|now apply H2].
Qed.
Lemma sorted_ascending l : ascending (sorted l).
Proof. induction l as [|s l IH]; cbn; [constructor|now apply insert_ascending]. Qed.
Lemma sorted_in s l : In s (sorted l) <-> In s l.
Proof. split; apply Permutation_in; [apply sorted_perm|apply Permutation_sym, sorted_perm]. Qed.
Lemma ascending_unique l l' : ascending l -> ascending l' -> Permutation l l' -> l = l'.
Proof.
  unfold ascending. revert l'. induction l as [|x l IH]; intros l' H H' P; [now apply Permutation_nil in P|].
  destruct l' as [|y l']; [apply Permutation_sym, Permutation_nil in P; discriminate|].
  inversion H as [|? ? H1 H2]; subst. inversion H' as [|? ? H1' H2']; subst. rewrite Forall_forall in *.
  assert (x = y) as ->.
  { destruct (Permutation_in _ P (or_introl eq_refl)) as [E|I]; [congruence|].
    destruct (Permutation_in _ (Permutation_sym P) (or_introl eq_refl)) as [E|I']; [congruence|].
    apply String.leb_antisym; auto. }
  f_equal. apply IH; auto. now apply Permutation_cons_inv in P.
Qed.
Lemma sorted_unique l l' : Permutation l l' -> sorted l = sorted l'.
Proof.
  intros P. apply ascending_unique; try apply sorted_ascending.
  eapply Permutation_trans; [apply sorted_perm|]. eapply Permutation_trans; [exact P|]. apply Permutation_sym, sorted_perm.
Qed.

Lemma contains_in s l : contains s l = true <-> In s l.
Proof.
  unfold contains. rewrite existsb_exists. split.
  - intros (x & H & E). apply String.eqb_eq in E. now subst.
  - intros H. exists s. split; [assumption|apply String.eqb_refl].
Qed.
Lemma contains_out s l : contains s l = false <-> ~ In s l.
Proof. rewrite <- contains_in. destruct (contains s l); split; congruence. Qed.
Lemma unique_in s l : In s (unique l) <-> In s l.
Proof.
  induction l as [|x l IH]; cbn; [tauto|]. destruct (contains x l) eqn:E; cbn; rewrite IH; [|tauto].
  apply contains_in in E. split; [tauto|]. intros [<-|]; assumption.
Qed.
Lemma unique_nodup l : NoDup (unique l).
Proof.
  induction l as [|x l IH]; cbn; [constructor|]. destruct (contains x l) eqn:E; [assumption|].
  constructor; [|assumption]. rewrite unique_in. now apply contains_out.
Qed.
Lemma sorted_nodup l : NoDup l -> NoDup (sorted l).
Proof. apply Permutation_NoDup, Permutation_sym, sorted_perm. Qed.

(* ---- characters ---- *)
Lemma upper_idem c : upper (upper c) = upper c.
Proof. destruct c as [b0 b1 b2 b3 b4 b5 b6 b7]. destruct b0, b1, b2, b3, b4, b5, b6, b7; vm_compute; reflexivity. Qed.
Lemma upper_principal c n : principal c n -> upper c = c.
Proof.
  intros [H1 H2]. unfold upper. rewrite H2. destruct (97 <=? 74 + n) eqn:E; [apply Nat.leb_le in E; lia|reflexivity].
Qed.
Lemma upper_capital c u : capital c u -> upper c = u.
Proof.
  intros [[n Hn] [-> | H]]; [eapply upper_principal; eassumption|]. destruct Hn as [H1 H2]. unfold upper. rewrite H, H2.
  destruct (97 <=? 74 + n + 32) eqn:E; [|apply Nat.leb_gt in E; lia].
  destruct (74 + n + 32 <=? 122) eqn:E'; [|apply Nat.leb_gt in E'; lia]. cbn [andb].
  replace (74 + n + 32 - 32) with (nat_of_ascii u) by lia. apply ascii_nat_embedding.
Qed.
Lemma alldigits_iff d : alldigits d = true <-> digits d.
Proof.
  unfold digits. induction d as [|c d IH]; cbn; [split; constructor|].
  rewrite andb_true_iff, IH. unfold isdigit. rewrite andb_true_iff, !Nat.leb_le. split.
  - intros [H1 H2]. now constructor.
  - intros H. inversion H; subst. tauto.
Qed.
Lemma prefix_letter u c r : String.prefix (String u EmptyString) (String c r) = Ascii.eqb u c.
Proof.
  cbn. destruct (ascii_dec u c) as [-> | N]; [now rewrite Ascii.eqb_refl; destruct r|].
  symmetry. now apply Ascii.eqb_neq.
Qed.
Lemma numeral_inj i j : numeral i = numeral j -> i = j.
Proof.
  unfold numeral. intros H. apply (f_equal NilZero.uint_of_string) in H.
  assert (forall k, Nat.to_uint k <> Decimal.Nil) as N.
  { intros k E. pose proof (DecimalNat.Unsigned.to_of (Nat.to_uint k)) as Q. rewrite E in Q. cbn in Q.
    pose proof (DecimalNat.Unsigned.of_to k) as Q'. rewrite E in Q'. cbn in Q'. subst k. discriminate E. }
  rewrite !NilZero.usu in H by apply N. assert (Nat.to_uint i = Nat.to_uint j) as E by congruence.
  now apply DecimalNat.Unsigned.to_uint_inj.
Qed.

(* ---- expansion ---- *)
Lemma subshells_in c n s : In s (subshells c n) <-> exists i, 1 <= i < 2 * n /\ s = String c (numeral i).
Proof.
  unfold subshells, shown. rewrite in_map_iff. split.
  - intros (i & <- & H). apply in_seq in H. exists i. split; [lia|reflexivity].
  - intros (i & H & ->). exists i. split; [reflexivity|]. apply in_seq. lia.
Qed.
Lemma subshells_nodup c n : NoDup (subshells c n).
Proof.
  unfold subshells, shown. apply FinFun.Injective_map_NoDup; [|apply seq_NoDup].
  intros i j H. apply numeral_inj. unfold numeral. congruence.
Qed.
Lemma subshells_length c n : List.length (subshells c n) = 2 * n - 1.
Proof. unfold subshells. now rewrite map_length, seq_length. Qed.
Lemma expand_letter_eq c : expand (String c "") =
  if (Z.of_nat (nat_of_ascii (upper c)) =? 75)%Z then Ok (inl (String (upper c) ""))
  else Ok (inr (subshells (upper c) (Z.to_nat (Z.of_nat (nat_of_ascii (upper c)) - 74)))).
Proof.
  unfold expand. change (Z.of_nat (nat_of_ascii "K")) with 75%Z. cbv zeta.
  replace (Z.of_nat (nat_of_ascii (upper c)) - 75 + 1)%Z with (Z.of_nat (nat_of_ascii (upper c)) - 74)%Z by lia.
  destruct (Z.of_nat (nat_of_ascii (upper c)) =? 75)%Z eqn:E.
  - apply Z.eqb_eq in E. rewrite E. reflexivity.
  - apply Z.eqb_neq in E. destruct (Z.of_nat (nat_of_ascii (upper c)) - 74 =? 1)%Z eqn:E'; [apply Z.eqb_eq in E'; lia|reflexivity].
Qed.
Lemma expand_capital c u : capital c u ->
  exists x, expand (String c "") = Ok x /\ (forall s, In s (items x) <-> subshell u s) /\ flattened x = items x /\
    ((exists n, principal u n /\ n = 1 /\ x = inl (String u "")) \/ (exists n, principal u n /\ 2 <= n /\ x = inr (subshells u n))).
Proof.
  intros H. rewrite expand_letter_eq, (upper_capital _ _ H). destruct H as [[n [H1 H2]] _]. rewrite H2.
  destruct (Z.of_nat (74 + n) =? 75)%Z eqn:E.
  - apply Z.eqb_eq in E. assert (n = 1) as -> by lia. exists (inl (String u "")). split; [reflexivity|]. split; [|split; [reflexivity|]].
    + intros s. cbn [items characters]. split.
      * intros [<-|[]]. exists 1. split; [split; assumption|]. left. split; reflexivity.
      * intros (n & [Hn1 Hn2] & [[-> ->]|(Hn & i & _ & _)]); [now left|lia].
    + left. exists 1. split; [split; assumption|]. split; reflexivity.
  - apply Z.eqb_neq in E. replace (Z.to_nat (Z.of_nat (74 + n) - 74)) with n by lia.
    exists (inr (subshells u n)). split; [reflexivity|]. split; [|split; [reflexivity|]].
    + intros s. cbn [items]. rewrite subshells_in. split.
      * intros H. exists n. split; [split; assumption|]. right. split; [lia|exact H].
      * intros (m & [Hm1 Hm2] & [[-> ->]|(Hm & i & Hi & ->)]); [lia|]. exists i. split; [lia|reflexivity].
    + right. exists n. split; [split; assumption|]. split; [lia|reflexivity].
Qed.

Lemma expand_letter_list c n : principal c n -> 2 <= n ->
  exists l, expand (String c "") = Ok (inr l) /\ NoDup l /\ List.length l = 2 * n - 1 /\ forall s, In s l <-> subshell c s.
Proof.
  intros P H. destruct (expand_capital c c (conj (ex_intro _ n P) (or_introl eq_refl))) as (x & E & I & _ & [(m & Pm & -> & _)|(m & Pm & Hm & ->)]).
  - destruct P, Pm. lia.
  - assert (m = n) as -> by (destruct P, Pm; lia). exists (subshells c n). split; [assumption|]. split; [apply subshells_nodup|].
    split; [apply subshells_length|exact I].
Qed.
Lemma expand_lower c u : capital c u -> expand (String c "") = expand (String u "").
Proof. intros H. rewrite !expand_letter_eq, (upper_capital _ _ H), <- (upper_capital _ _ H), upper_idem. reflexivity. Qed.
Lemma expand_longer c d : d <> "" -> expand (String c d) = if alldigits d then Ok (inl (String c d)) else Ok (inl (String c "")).
Proof. intros H. destruct d; [contradiction|reflexivity]. Qed.

Lemma mapM_expand shells : Forall expandable shells ->
  exists l, mapM expand shells = Ok l /\ forall s, In s (flat_map flattened l) <-> exists x, In x shells /\ expands x s.
Proof.
  induction shells as [|x shells IH]; intros F.
  - exists []. split; [reflexivity|]. intros s. split; [intros []|intros (x & [] & _)].
  - inversion F as [|? ? F1 F2]; subst. destruct (IH F2) as (l & El & Il). cbn [mapM]. rewrite El.
    assert (exists y, expand x = Ok y /\ forall s, In s (flattened y) <-> expands x s) as (y & Ey & Iy).
    { destruct F1 as (c & d & -> & Hd). destruct d as [|c' d].
      - destruct (Hd eq_refl) as [u Hu]. destruct (expand_capital c u Hu) as (y & Ey & Iy & Fy & _). exists y. split; [assumption|].
        rewrite Fy. intros s. rewrite Iy. split; [now apply expands_letter|].
        intros E. inversion E as [? u' ? Cu' Su'|? ? N|? ? N]; subst; [|congruence|congruence].
        rewrite <- (upper_capital _ _ Hu), (upper_capital _ _ Cu'). assumption.
      - set (d' := String c' d). assert (d' <> "") as N by discriminate. rewrite expand_longer by assumption. clearbody d'. destruct (alldigits d') eqn:A.
        + apply alldigits_iff in A. eexists. split; [reflexivity|]. intros s. cbn. split.
          * intros [<-|[]]. now apply expands_number.
          * intros E. inversion E; subst; [congruence|now left|contradiction].
        + assert (~ digits d') as A' by (intros D; apply alldigits_iff in D; congruence).
          eexists. split; [reflexivity|]. intros s. cbn. split.
          * intros [<-|[]]. now apply expands_other.
          * intros E. inversion E; subst; [congruence|contradiction|now left]. }
    rewrite Ey. cbn [bind]. exists (y :: l). split; [reflexivity|]. intros s. cbn [flat_map]. rewrite in_app_iff, Iy, Il. split.
    + intros [H|(z & H & E)]; [exists x; split; [now left|assumption]|exists z; split; [now right|assumption]].
    + intros (z & [<-|H] & E); [now left|right; now exists z].
Qed.
Lemma expandall_spec shells : Forall expandable shells ->
  exists r, expandall shells = Ok r /\ ascending r /\ NoDup r /\ forall s, In s r <-> exists x, In x shells /\ expands x s.
Proof.
  intros F. destruct (mapM_expand shells F) as (l & El & Il). unfold expandall. rewrite El. cbn [bind].
  eexists. split; [reflexivity|]. split; [apply sorted_ascending|]. split; [apply sorted_nodup, unique_nodup|].
  intros s. rewrite sorted_in, unique_in. apply Il.
Qed.
Lemma expandall_empty shells : In "" shells -> expandall shells = Err IndexError.
Proof.
  intros H. unfold expandall. assert (mapM expand shells = Err IndexError) as ->; [|reflexivity].
  induction shells as [|x shells IH]; [contradiction|]. cbn [mapM]. destruct H as [->|H]; [reflexivity|].
  destruct x as [|c d]; [reflexivity|]. assert (exists y, expand (String c d) = Ok y) as [y ->].
  { destruct d as [|c' d']; [rewrite expand_letter_eq; destruct (_ =? _)%Z; eauto|].
    rewrite expand_longer by discriminate. destruct (alldigits _); eauto. }
  cbn [bind]. now rewrite (IH H).
Qed.

(* ---- selection ---- *)
Lemma select_app shells sel g : select shells (sel ++ [g]) = let! l := select shells sel in select l [g].
Proof.
  revert shells. induction sel as [|x sel IH]; intros shells; [reflexivity|]. cbn [app select].
  destruct (expand x); cbn [bind]; [apply IH|reflexivity].
Qed.
Lemma expandselection_last shells sel c u r : capital c u -> expandselection shells (sel ++ [String c ""]) = Ok r ->
  forall s, In s r -> s = String c "" \/ subshell u s.
Proof.
  intros Hu H s Hs. unfold expandselection in H. rewrite select_app in H. destruct (select shells sel) as [l|e]; [|discriminate].
  destruct (expand_capital c u Hu) as (x & Ex & Ix & _). cbn [bind select] in H. rewrite Ex in H. cbn [bind] in H.
  assert (r = sorted (filter (fun s : string => negb (negb (String.eqb s (String c "")))) l ++ items x)) as -> by congruence.
  apply (proj1 (sorted_in _ _)), in_app_or in Hs. destruct Hs as [Hs|Hs]; [left|right; now apply Ix].
  apply filter_In in Hs. destruct Hs as [_ E]. rewrite negb_involutive in E. now apply String.eqb_eq.
Qed.

(* ---- shrinking ---- *)
Definition full (shells : list string) (u : ascii) : bool :=
  match expand (String u "") with Ok x => forallb (fun s => contains s shells) (items x) | Err _ => false end.
Lemma full_complete shells u n : principal u n -> full shells u = true <-> complete shells u.
Proof.
  intros P. destruct (expand_capital u u (conj (ex_intro _ n P) (or_introl eq_refl))) as (x & E & I & _).
  unfold full. rewrite E, forallb_forall. split.
  - intros H. split; [now exists n|]. intros s Hs. apply contains_in, H. now apply I.
  - intros [_ H] s Hs. apply contains_in, H. now apply I.
Qed.
Definition drops (shells : list string) (us : list ascii) (s : string) : bool :=
  existsb (fun u => String.prefix (String u "") s && full shells u) us.
Definition letters (us : list ascii) : list string := map (fun u => String u "") us.
Definition state (shells : list string) (us : list ascii) : list string :=
  filter (fun s => negb (drops shells us s)) shells ++ letters (filter (full shells) us).
Lemma subshell_begins u s : subshell u s -> exists r, s = String u r.
Proof. intros (n & _ & [[_ ->]|(_ & i & _ & ->)]); eauto. Qed.
Lemma state_same shells us u s : ~ In u us -> (exists r, s = String u r) -> In s (state shells us) <-> In s shells.
Proof.
  intros N [r ->]. unfold state. rewrite in_app_iff, filter_In. split.
  - intros [[H _]|H]; [assumption|]. unfold letters in H. apply in_map_iff in H. destruct H as (v & E & H). apply filter_In in H.
    exfalso. apply N. assert (v = u) as -> by congruence. tauto.
  - intros H. left. split; [assumption|]. apply negb_true_iff. unfold drops.
    destruct (existsb _ us) eqn:X; [|reflexivity]. apply existsb_exists in X. destruct X as (v & Hv & X).
    rewrite prefix_letter in X. apply andb_true_iff in X. destruct X as [X _]. apply Ascii.eqb_eq in X. subst. contradiction.
Qed.
Lemma full_state shells us u n : principal u n -> ~ In u us -> full (state shells us) u = full shells u.
Proof.
  intros P N. apply eq_true_iff_eq. rewrite !(full_complete _ _ _ P). unfold complete. split; intros [A B]; split; try assumption; intros s Hs;
  specialize (B s Hs); destruct (subshell_begins _ _ Hs) as [r Hr]; apply (state_same shells us u s N (ex_intro _ r Hr)); assumption.
Qed.
Lemma filter_twice {A} (f g : A -> bool) l : filter f (filter g l) = filter (fun x => g x && f x) l.
Proof. induction l as [|x l IH]; [reflexivity|]. cbn. destruct (g x); cbn; [|apply IH]. destruct (f x); now rewrite IH. Qed.
Lemma state_step shells us u n : principal u n -> ~ In u us ->
  (if full (state shells us) u then filter (fun s => negb (String.prefix (String u "") s)) (state shells us) ++ [String u ""] else state shells us)
  = state shells (us ++ [u]).
Proof.
  intros P N. rewrite (full_state _ _ _ _ P N). unfold state at 1 2 3. rewrite filter_app, filter_twice.
  unfold state. rewrite filter_app. cbn [filter]. unfold letters. rewrite map_app.
  assert (forall s, drops shells (us ++ [u]) s = drops shells us s || (String.prefix (String u "") s && full shells u)) as D.
  { intros s. unfold drops. rewrite existsb_app. cbn [existsb]. now rewrite orb_false_r. }
  destruct (full shells u) eqn:F.
  - rewrite <- app_assoc. f_equal.
    + apply filter_ext. intros s. rewrite D, andb_true_r. now rewrite negb_orb.
    + f_equal. assert (forall v, In v us -> Ascii.eqb u v = false) as Q.
      { intros v Hv. apply Ascii.eqb_neq. intros ->. contradiction. }
      clear -Q. induction us as [|v us IH]; [reflexivity|]. cbn [filter]. destruct (full shells v); cbn [map filter].
      * rewrite prefix_letter, (Q v (or_introl eq_refl)). cbn [negb]. f_equal. apply IH. intros w Hw. apply Q. now right.
      * apply IH. intros w Hw. apply Q. now right.
  - cbn [map]. rewrite app_nil_r. f_equal. apply filter_ext. intros s. rewrite D, andb_false_r, orb_false_r. reflexivity.
Qed.
Lemma shrink_loop_spec shells todo : forall us,
  NoDup (us ++ todo) -> Forall (fun u => exists n, principal u n) todo ->
  shrink_loop (letters todo) (state shells us) = Ok (state shells (us ++ todo)).
Proof.
  induction todo as [|u todo IH]; intros us ND F; [now rewrite app_nil_r|].
  inversion F as [|? ? [n P] F']; subst. cbn [letters map shrink_loop].
  assert (~ In u us) as N.
  { apply NoDup_remove_2 in ND. rewrite in_app_iff in ND. tauto. }
  pose proof (state_step shells us u n P N) as ST. unfold full in ST at 1.
  destruct (expand_capital u u (conj (ex_intro _ n P) (or_introl eq_refl))) as (x & E & _). rewrite E in ST. rewrite E. cbn [bind].
  rewrite ST. change (map (fun u => String u "") todo) with (letters todo).
  rewrite IH; [now rewrite <- app_assoc|rewrite <- app_assoc; exact ND|assumption].
Qed.
Lemma state_nil shells : state shells [] = shells.
Proof. unfold state. cbn. rewrite app_nil_r. clear. induction shells; [reflexivity|]. cbn. now f_equal. Qed.

Lemma letters_of shells : Forall named shells ->
  exists us, mapM letter shells = Ok (letters us) /\ Forall (fun u => exists n, principal u n) us /\
    forall u, In u us <-> exists d, In (String u d) shells.
Proof.
  induction shells as [|s shells IH]; intros F.
  - exists []. split; [reflexivity|]. split; [constructor|]. intros u. split; [intros []|intros (d & [])].
  - inversion F as [|? ? (c & d & n & -> & P) F']; subst. destruct (IH F') as (us & E & Fu & Iu).
    exists (c :: us). cbn [mapM letter bind]. rewrite E, (upper_principal _ _ P). cbn [bind]. split; [reflexivity|]. split; [constructor; eauto|].
    intros u. cbn [In]. rewrite Iu. split.
    + intros [-> | [e He]]; [exists d; now left|exists e; now right].
    + intros (e & [He|He]); [left; congruence|right; now exists e].
Qed.
Lemma letters_inv l us : (forall s, In s l -> In s (letters us)) -> exists vs, l = letters vs /\ forall u, In u vs -> In u us.
Proof.
  induction l as [|s l IH]; intros H; [exists []; split; [reflexivity|intros ? []]|].
  destruct IH as (vs & -> & Hv); [intros; apply H; now right|].
  pose proof (H s (or_introl eq_refl)) as Hs. apply in_map_iff in Hs. destruct Hs as (u & <- & Hu).
  exists (u :: vs). split; [reflexivity|]. intros w [<-|Hw]; [assumption|now apply Hv].
Qed.
Lemma letters_nodup vs : NoDup (letters vs) -> NoDup vs.
Proof. apply NoDup_map_inv. Qed.

Lemma shrink_closed order shells : (forall l, Permutation (order l) l) -> Forall named shells ->
  exists vs, shrink order shells = Ok (sorted (state shells vs)) /\ NoDup vs /\ Forall (fun u => exists n, principal u n) vs /\
    (forall u, In u vs <-> exists d, In (String u d) shells) /\
    (forall us, mapM letter shells = Ok (letters us) -> Permutation (letters vs) (unique (letters us))).
Proof.
  intros O F. destruct (letters_of shells F) as (us & E & Fu & Iu). unfold shrink. rewrite E. cbn [bind].
  destruct (letters_inv (order (unique (letters us))) us) as (vs & Ev & Hv).
  { intros s Hs. apply (Permutation_in _ (O _)), (proj1 (unique_in _ _)) in Hs. assumption. }
  rewrite Ev. assert (NoDup vs) as ND.
  { apply letters_nodup. rewrite <- Ev. eapply Permutation_NoDup; [apply Permutation_sym, O|apply unique_nodup]. }
  assert (Forall (fun u => exists n, principal u n) vs) as Fv by (rewrite Forall_forall in *; auto).
  pose proof (shrink_loop_spec shells vs [] ND Fv) as L. rewrite state_nil in L. cbn [app] in L. rewrite L. cbn [bind].
  exists vs. split; [reflexivity|]. split; [assumption|]. split; [assumption|]. split.
  - intros u. rewrite <- Iu. split; [apply Hv|]. intros H.
    assert (In (String u "") (order (unique (letters us)))) as Q.
    { apply (Permutation_in _ (Permutation_sym (O _))), unique_in. apply (in_map (fun u => String u "")). assumption. }
    rewrite Ev in Q. apply in_map_iff in Q. destruct Q as (w & Ew & Hw). assert (w = u) as -> by congruence. assumption.
  - intros us' E'. assert (letters us = letters us') as <- by congruence. rewrite <- Ev. apply O.
Qed.

Lemma shrink_spec order shells : (forall l, Permutation (order l) l) -> Forall named shells ->
  exists r, shrink order shells = Ok r /\ ascending r /\
    forall s, In s r <-> (In s shells /\ ~ exists c d, s = String c d /\ complete shells c) \/ (exists c, s = String c "" /\ complete shells c).
Proof.
  intros O F. destruct (shrink_closed order shells O F) as (vs & E & ND & Fv & Iv & _). rewrite E.
  eexists. split; [reflexivity|]. split; [apply sorted_ascending|]. intros s. rewrite sorted_in. unfold state.
  rewrite in_app_iff, filter_In, negb_true_iff. rewrite Forall_forall in F, Fv.
  assert (forall c, complete shells c -> In c vs /\ full shells c = true) as Cv.
  { intros c C. pose proof C as [[n P] H]. split; [|now apply (full_complete _ _ _ P)]. apply Iv.
    destruct (Nat.eq_dec n 1) as [-> | Hn].
    - exists "". apply H. exists 1. split; [assumption|]. left. split; reflexivity.
    - exists (numeral 1). apply H. exists n. split; [assumption|]. right. split; [destruct P; lia|]. exists 1. split; [destruct P; lia|reflexivity]. }
  split.
  - intros [[H D]|H].
    + left. split; [assumption|]. intros (c & d & -> & C). destruct (Cv c C) as [I Fc]. unfold drops in D.
      assert (existsb (fun u => String.prefix (String u "") (String c d) && full shells u) vs = true); [|congruence].
      apply existsb_exists. exists c. split; [assumption|]. now rewrite prefix_letter, Ascii.eqb_refl, Fc.
    + right. apply in_map_iff in H. destruct H as (c & <- & H). apply filter_In in H. destruct H as [H Fc].
      destruct (Fv c H) as [n P]. exists c. split; [reflexivity|]. now apply (full_complete _ _ _ P).
  - intros [[H N]|(c & -> & C)].
    + left. split; [assumption|]. unfold drops. destruct (existsb _ vs) eqn:X; [|reflexivity]. exfalso. apply N.
      apply existsb_exists in X. destruct X as (u & Hu & X). destruct (F s H) as (c & d & n & -> & P).
      rewrite prefix_letter in X. apply andb_true_iff in X. destruct X as [X Fu]. apply Ascii.eqb_eq in X. subst.
      exists c, d. split; [reflexivity|]. now apply (full_complete _ _ _ P).
    + right. destruct (Cv c C) as [I Fc]. apply (in_map (fun u => String u "")). apply filter_In. split; assumption.
Qed.

Lemma filter_perm {A} (f : A -> bool) l l' : Permutation l l' -> Permutation (filter f l) (filter f l').
Proof.
  induction 1 as [|x l l' P IH|x y l|l l' l'' P1 IH1 P2 IH2]; cbn.
  - constructor.
  - destruct (f x); [now apply perm_skip|assumption].
  - destruct (f x), (f y); try apply perm_swap; apply Permutation_refl.
  - eapply Permutation_trans; eassumption.
Qed.
Lemma shrink_order o o' shells : (forall l, Permutation (o l) l) -> (forall l, Permutation (o' l) l) -> Forall named shells ->
  shrink o shells = shrink o' shells.
Proof.
  intros O O' F. destruct (shrink_closed o shells O F) as (vs & E & ND & Fv & Iv & _).
  destruct (shrink_closed o' shells O' F) as (vs' & E' & ND' & Fv' & Iv' & _). rewrite E, E'. f_equal. apply sorted_unique.
  assert (Permutation vs vs') as P by (apply NoDup_Permutation; try assumption; intros u; now rewrite Iv, Iv').
  unfold state. apply Permutation_app.
  - assert (filter (fun s => negb (drops shells vs s)) shells = filter (fun s => negb (drops shells vs' s)) shells) as ->; [|apply Permutation_refl].
    apply filter_ext. intros s. f_equal. unfold drops. apply eq_true_iff_eq. rewrite !existsb_exists.
    split; intros (u & Hu & H); exists u; (split; [|assumption]); [now apply (Permutation_in _ P)|now apply (Permutation_in _ (Permutation_sym P))].
  - unfold letters. apply Permutation_map. now apply filter_perm.
Qed.
Lemma shrink_empty order shells : In "" shells -> shrink order shells = Err IndexError.
Proof.
  intros H. unfold shrink. assert (mapM letter shells = Err IndexError) as ->; [|reflexivity].
  induction shells as [|x shells IH]; [contradiction|]. cbn [mapM]. destruct H as [->|H]; [reflexivity|].
  destruct x as [|c d]; [reflexivity|]. cbn [letter bind]. now rewrite (IH H).
Qed.

(* expanding what was shrunk gives the shells back *)
Lemma subshell_named s : (exists c, subshell c s) -> named s.
Proof. intros (c & n & P & [[_ ->]|(_ & i & _ & ->)]); [exists c, "", n|exists c, (numeral i), n]; split; auto. Qed.
Lemma uint_digits d : digits (NilEmpty.string_of_uint d).
Proof.
  unfold digits. induction d as [|d IH|d IH|d IH|d IH|d IH|d IH|d IH|d IH|d IH|d IH];
    cbn [NilEmpty.string_of_uint list_ascii_of_string]; [constructor|..]; constructor; try exact IH; vm_compute; lia.
Qed.
Lemma numeral_digits i : digits (numeral i) /\ numeral i <> "".
Proof.
  unfold numeral, NilZero.string_of_uint. destruct (Nat.to_uint i); (split; [|discriminate]); try apply (uint_digits _).
  unfold digits. cbn. constructor; [vm_compute; lia|constructor].
Qed.
Lemma round_trip order shells : (forall l, Permutation (order l) l) -> Forall (fun s => exists c, subshell c s) shells ->
  exists r r', shrink order shells = Ok r /\ expandall r = Ok r' /\ ascending r' /\ NoDup r' /\ forall s, In s r' <-> In s shells.
Proof.
  intros O F. assert (Forall named shells) as Fn.
  { rewrite Forall_forall in *. intros s Hs. now apply subshell_named, F. }
  destruct (shrink_spec order shells O Fn) as (r & E & _ & I). rewrite Forall_forall in F, Fn.
  assert (Forall expandable r) as Fe.
  { apply Forall_forall. intros s Hs. apply I in Hs. destruct Hs as [[H _]|(c & -> & [[n P] _])].
    - destruct (Fn s H) as (c & d & n & -> & P). exists c, d. split; [reflexivity|]. intros _. exists c. split; [now exists n|now left].
    - exists c, "". split; [reflexivity|]. intros _. exists c. split; [now exists n|now left]. }
  destruct (expandall_spec r Fe) as (r' & E' & A & ND & I'). exists r, r'. split; [assumption|]. split; [assumption|].
  split; [assumption|]. split; [assumption|]. intros s. rewrite I'. split.
  - intros (x & Hx & X). apply I in Hx. destruct Hx as [[H N]|(c & -> & C)].
    + destruct (F x H) as (c & n & P & [[-> ->]|(Hn & i & Hi & ->)]).
      * inversion X as [? u ? Cu Su|? ? Nd|? ? Nd]; subst; [|congruence|congruence].
        assert (c = u) as <-.
        { rewrite <- (upper_capital _ _ Cu). symmetry. eapply upper_principal; eassumption. }
        destruct Su as (m & Pm & [[-> ->]|(Hm & _)]); [assumption|]. destruct P, Pm. lia.
      * destruct (numeral_digits i) as [D Nd]. inversion X; subst; try congruence; try contradiction; assumption.
    + destruct C as [[n P] C]. inversion X as [? u ? Cu Su|? ? Nd|? ? Nd]; subst; [|congruence|congruence].
      assert (c = u) as <-.
      { rewrite <- (upper_capital _ _ Cu). symmetry. eapply upper_principal; eassumption. }
      now apply C.
  - intros H. destruct (F s H) as (c & Sc). destruct (full shells c) eqn:Fc.
    + exists (String c ""). destruct Sc as (n & P & Q). assert (complete shells c) as C by now apply (full_complete _ _ _ P).
      split; [apply I; right; now exists c|]. apply expands_letter with (u := c); [split; [now exists n|now left]|exists n; tauto].
    + exists s. assert (~ complete shells c) as NC.
      { destruct Sc as (n & P & Q). intros C. apply (full_complete _ _ _ P) in C. congruence. }
      split.
      * apply I. left. split; [assumption|]. intros (c' & d & -> & C). apply NC. destruct (subshell_begins _ _ Sc) as [r0 Hr]. now assert (c' = c) as <- by congruence.
      * destruct Sc as (n & P & [[-> ->]|(Hn & i & Hi & ->)]).
        -- apply expands_letter with (u := c); [split; [now exists 1|now left]|]. exists 1. split; [assumption|]. left. split; reflexivity.
        -- destruct (numeral_digits i). now apply expands_number.
Qed.

(* ---- the names for PyMca ---- *)
Lemma filterM_spec f g l : (forall s, In s l -> f s = Ok (g s)) -> filterM f l = Ok (filter g l).
Proof.
  induction l as [|s l IH]; intros H; [reflexivity|]. cbn [filterM filter]. rewrite (H s (or_introl eq_refl)). cbn [bind].
  rewrite IH by (intros; apply H; now right). cbn [bind]. now destruct (g s).
Qed.
Definition head_in (l : list string) (s : string) : bool := match s with EmptyString => false | String c _ => contains (String c "") l end.
Lemma pymca_spec order names allow : (forall l, Permutation (order l) l) -> Forall named names ->
  exists r, pymcafactory order names [] allow = Ok r /\
    exists sh, shrink order names = Ok sh /\
    forall s, In s r <-> In s sh /\ exists c d, s = String c d /\ In c ["K"%char; "L"%char; "M"%char] /\ (allow = true \/ c <> "M"%char \/ d = "").
Proof.
  intros O F. destruct (shrink_spec order names O F) as (sh & E & _ & I). unfold pymcafactory. rewrite E. cbn [bind].
  assert (forall s, In s sh -> s <> "") as NE.
  { intros s Hs ->. apply I in Hs. rewrite Forall_forall in F. destruct Hs as [[H _]|(c & H & _)]; [|discriminate].
    destruct (F _ H) as (c & d & n & X & _). discriminate. }
  rewrite (filterM_spec _ (fun s => head_in ["K"; "L"; "M"] s)).
  2:{ intros s Hs. destruct s as [|c d]; [now destruct (NE _ Hs)|reflexivity]. }
  cbn [bind]. set (sh' := filter _ sh). assert (forall s, In s sh' <-> In s sh /\ exists c d, s = String c d /\ In c ["K"%char; "L"%char; "M"%char]) as I'.
  { intros s. unfold sh'. rewrite filter_In. split.
    - intros [H X]. split; [assumption|]. destruct s as [|c d]; [discriminate|]. cbn [head_in] in X. apply contains_in in X.
      exists c, d. split; [reflexivity|]. destruct X as [X|[X|[X|[]]]]; [left|right; left|right; right; left]; congruence.
    - intros (H & c & d & -> & X). split; [assumption|]. cbn [head_in]. apply contains_in.
      destruct X as [<-|[<-|[<-|[]]]]; [left|right; left|right; right; left]; reflexivity. }
  clearbody sh'. destruct allow.
  - exists sh'. split; [reflexivity|]. exists sh. split; [reflexivity|]. intros s. rewrite I'. split.
    + intros (H & c & d & -> & X). split; [assumption|]. exists c, d. repeat split; auto.
    + intros (H & c & d & -> & X & _). split; [assumption|]. now exists c, d.
  - rewrite (filterM_spec _ (fun s => negb (head_in ["M"] s) || String.eqb s "M")).
    2:{ intros s Hs. apply I' in Hs. destruct Hs as (_ & c & d & -> & _). cbn [initial bind head_in]. unfold contains. cbn [existsb]. now rewrite orb_false_r. }
    exists (filter (fun s => negb (head_in ["M"] s) || String.eqb s "M") sh'). split; [reflexivity|]. exists sh. split; [reflexivity|]. intros s.
    rewrite filter_In, I'. split.
    + intros [(H & c & d & -> & X) G]. split; [assumption|]. exists c, d. split; [reflexivity|]. split; [assumption|]. right.
      apply orb_true_iff in G. destruct G as [G|G].
      * left. intros ->. apply negb_true_iff in G. cbn [head_in] in G. apply contains_out in G. apply G. now left.
      * right. apply String.eqb_eq in G. congruence.
    + intros (H & c & d & -> & X & G). split; [split; [assumption|now exists c, d]|]. apply orb_true_iff.
      destruct G as [G|[G| ->]]; [discriminate| |].
      * left. apply negb_true_iff. cbn [head_in]. apply contains_out. intros [Q|[]]. congruence.
      * destruct X as [<-|[<-|[<-|[]]]]; [left|left|right]; reflexivity.
Qed.

(* ---- names and codes of lines ---- *)
Lemma longest_spec names : forall best, (longest best names = best \/ In (longest best names) names) /\
  String.length best <= String.length (longest best names) /\ forall n, In n names -> String.length n <= String.length (longest best names).
Proof.
  induction names as [|m names IH]; intros best; cbn [longest]; [split; [now left|split; [lia|intros ? []]]|].
  destruct (IH (if String.length best <? String.length m then m else best)) as (A & B & C).
  destruct (String.length best <? String.length m) eqn:E; [apply Nat.ltb_lt in E|apply Nat.ltb_ge in E].
  - split; [right; destruct A as [-> |A]; [now left|now right]|]. split; [lia|]. intros n [<-|H]; [lia|now apply C].
  - split; [destruct A as [A|A]; [now left|right; now right]|]. split; [lia|]. intros n [<-|H]; [lia|now apply C].
Qed.
Lemma code_names t code names : code_to_line t code = Ok names -> forall n, In n names <-> In (n, code) (t_lines t).
Proof.
  unfold code_to_line. intros H n. destruct (map fst _) as [|x l] eqn:E; [discriminate|]. assert (names = x :: l) as -> by congruence.
  rewrite <- E, in_map_iff. split.
  - intros ([n' c] & <- & X). apply filter_In in X. cbn in X. destruct X as [X Y]. apply Z.eqb_eq in Y. now subst.
  - intros X. exists (n, code). split; [reflexivity|]. apply filter_In. split; [assumption|]. apply Z.eqb_refl.
Qed.
Lemma getlinename_code t code n : getlinename t (LineCode code) = Ok n ->
  In (n, code) (t_lines t) /\ forall m, In (m, code) (t_lines t) -> String.length m <= String.length n.
Proof.
  cbn [getlinename]. destruct (code_to_line t code) as [names|e] eqn:E; [|discriminate]. cbn [bind]. pose proof (code_names t code names E) as I.
  intros H. assert (In n names /\ forall m, In m names -> String.length m <= String.length n) as [A B].
  { destruct names as [|n0 [|n1 [|n2 l]]].
    - discriminate.
    - assert (n = n0) as -> by congruence. split; [now left|]. intros m [<-|[]]. lia.
    - destruct (String.length n0 =? String.length n1) eqn:L.
      + apply Nat.eqb_eq in L. assert (n = n0 \/ n = n1) as D.
        { destruct (String.get 1 n0) as [c|]; [|discriminate]. destruct (_ || _); [right|left]; congruence. }
        split; [destruct D as [-> | ->]; [now left|right; now left]|]. intros m [<-|[<-|[]]]; destruct D as [-> | ->]; lia.
      + apply Nat.eqb_neq in L. destruct (String.length n1 <? String.length n0) eqn:L'; [apply Nat.ltb_lt in L'|apply Nat.ltb_ge in L'].
        * assert (n = n0) as -> by congruence. split; [now left|]. intros m [<-|[<-|[]]]; lia.
        * assert (n = n1) as -> by congruence. split; [right; now left|]. intros m [<-|[<-|[]]]; lia.
    - assert (n = longest n0 (n1 :: n2 :: l)) as -> by congruence. destruct (longest_spec (n1 :: n2 :: l) n0) as (A & B & C).
      split; [destruct A as [A|A]; [left; congruence|right; exact A]|]. intros m [<-|Hm]; [assumption|now apply C]. }
  split; [now apply I|]. intros m Hm. apply B. now apply I.
Qed.
Lemma two_elements {A} (l : list A) a b : NoDup l -> a <> b -> (forall x, In x l <-> x = a \/ x = b) -> l = [a; b] \/ l = [b; a].
Proof.
  intros ND N I. assert (Permutation l [a; b]) as P.
  { apply NoDup_Permutation; [assumption| |]; [constructor; [intros [E|[]]; congruence|constructor; [intros []|constructor]]|]. intros x. rewrite I. cbn. intuition. }
  apply Permutation_sym, Permutation_length_2_inv in P. tauto.
Qed.
Lemma code_names_nodup t code names : NoDup (map fst (t_lines t)) -> code_to_line t code = Ok names -> NoDup names.
Proof.
  unfold code_to_line. intros ND H. destruct (map fst (filter _ (t_lines t))) as [|x l] eqn:E; [discriminate|]. assert (names = x :: l) as -> by congruence. rewrite <- E.
  clear E H. induction (t_lines t) as [|[k v] d IH]; [constructor|]. cbn [map fst] in ND. inversion ND; subst. cbn [filter]. destruct (snd (k, v) =? code)%Z; [|now apply IH].
  cbn [map fst]. constructor; [|now apply IH]. intros Q. apply H1. apply in_map_iff in Q. destruct Q as ([k' v'] & Ek & Q). apply filter_In in Q. apply in_map_iff. exists (k', v'). tauto.
Qed.
Lemma siegbahn_dec n : 2 <= String.length n -> exists c, String.get 1 n = Some c /\ (Ascii.eqb c "A" || Ascii.eqb c "B" = true <-> siegbahn n).
Proof.
  intros H. destruct n as [|a [|b n]]; cbn [String.length] in H; try lia. exists b. split; [reflexivity|]. rewrite orb_true_iff, !Ascii.eqb_eq. split.
  - intros Q. now exists a, b, n.
  - intros (a' & b' & r & E & Q). now assert (b' = b) as <- by congruence.
Qed.
Lemma getlinename_two t code n0 n1 : NoDup (map fst (t_lines t)) -> (forall m, In (m, code) (t_lines t) <-> m = n0 \/ m = n1) ->
  String.length n0 = String.length n1 -> siegbahn n1 -> ~ siegbahn n0 -> getlinename t (LineCode code) = Ok n0.
Proof.
  intros ND I L S1 S0. assert (n0 <> n1) as N by (intros ->; contradiction). assert (exists names, code_to_line t code = Ok names) as [names E].
  { unfold code_to_line. destruct (map fst (filter _ _)) eqn:E; [|eauto]. exfalso. assert (In n0 []) as []. rewrite <- E. apply in_map_iff. exists (n0, code). split; [reflexivity|].
    apply filter_In. split; [apply I; now left|apply Z.eqb_refl]. }
  pose proof (code_names t code names E) as In_. pose proof (code_names_nodup t code names ND E) as NDn.
  assert (2 <= String.length n1) as L1 by (destruct S1 as (a & b & r & -> & _); cbn; lia).
  cbn [getlinename]. rewrite E. cbn [bind].
  destruct (two_elements names n0 n1 NDn N) as [-> | ->]; [intros x; rewrite In_; apply I| |].
  - rewrite (proj2 (Nat.eqb_eq _ _) L). destruct (siegbahn_dec n0) as (c & -> & Q); [lia|]. destruct (_ || _); [|reflexivity]. exfalso. apply S0. now apply Q.
  - rewrite (proj2 (Nat.eqb_eq _ _) (eq_sym L)). destruct (siegbahn_dec n1) as (c & -> & Q); [lia|]. rewrite (proj2 Q S1). reflexivity.
Qed.
Lemma lookup_in {V} (k : string) (d : list (string * V)) v : NoDup (map fst d) -> lookup String.eqb k d = Some v <-> In (k, v) d.
Proof.
  induction d as [|[k' v'] d IH]; cbn [lookup map fst]; intros ND; [split; [discriminate|intros []]|]. inversion ND; subst.
  destruct (String.eqb k k') eqn:E.
  - apply String.eqb_eq in E. subst. split.
    + intros H. left. congruence.
    + intros [H|H]; [congruence|]. exfalso. apply H1. apply in_map_iff. now exists (k', v).
  - apply String.eqb_neq in E. rewrite IH by assumption. split; [intros; now right|]. intros [H|H]; [congruence|assumption].
Qed.
Lemma new_line_code t code l : new_line t (LineCode code) = Ok l -> l_code l = code /\ In (l_name l, code) (t_lines t).
Proof.
  cbn [new_line getlinecode]. destruct (is_code t code); [|discriminate]. cbn [bind]. destruct (getlinename t (LineCode code)) as [n|e] eqn:E; [|discriminate].
  cbn [bind]. intros H. assert (l = {| l_code := code; l_name := n |}) as -> by congruence. cbn. split; [reflexivity|]. now apply getlinename_code in E.
Qed.
Lemma new_line_name t name c : NoDup (map fst (t_lines t)) -> In (name, c) (t_lines t) ->
  new_line t (LineName name) = Ok {| l_code := c; l_name := name |}.
Proof.
  intros ND H. apply (lookup_in name (t_lines t) c ND) in H. cbn [new_line getlinecode getlinename]. unfold mem. now rewrite H.
Qed.
Lemma new_line_unknown t name : ~ In name (map fst (t_lines t)) -> new_line t (LineName name) = Err KeyError.
Proof.
  intros H. cbn [new_line getlinecode]. destruct (lookup String.eqb name (t_lines t)) as [c|] eqn:E; [|reflexivity]. exfalso. apply H.
  clear H. induction (t_lines t) as [|[k v] d IH]; [discriminate|]. cbn [lookup] in E. destruct (String.eqb name k) eqn:X.
  - apply String.eqb_eq in X. now left.
  - right. now apply IH.
Qed.
Lemma linename_unknown t name : getlinename t (LineName name) = Err ValueError <-> ~ In name (map fst (t_lines t)).
Proof.
  cbn [getlinename]. destruct (mem String.eqb name (t_lines t)) eqn:E.
  - split; [discriminate|]. intros H. exfalso. apply H. clear H. unfold mem in E. destruct (lookup String.eqb name (t_lines t)) as [c|] eqn:L; [|discriminate]. clear E.
    induction (t_lines t) as [|[k v] d IH]; [discriminate|]. cbn [lookup] in L. destruct (String.eqb name k) eqn:X; [apply String.eqb_eq in X; now left|right; now apply IH].
  - split; [|reflexivity]. intros _ I. unfold mem in E. destruct (lookup String.eqb name (t_lines t)) as [c|] eqn:L; [discriminate|]. clear E.
    induction (t_lines t) as [|[k v] d IH]; [destruct I|]. cbn [lookup] in L. destruct (String.eqb name k) eqn:X; [discriminate|]. destruct I as [I|I]; [cbn in I; subst; rewrite String.eqb_refl in X; discriminate|now apply IH].
Qed.
Lemma new_line_unknown_code t code : ~ In code (map snd (t_lines t)) -> new_line t (LineCode code) = Err ValueError.
Proof.
  intros H. cbn [new_line getlinecode]. unfold is_code. destruct (existsb _ _) eqn:E; [|reflexivity]. exfalso. apply H.
  apply existsb_exists in E. destruct E as ([n c] & I & E). cbn in E. apply Z.eqb_eq in E. subst. apply in_map_iff. now exists (n, code).
Qed.
Lemma alias_unequal t n m c l l' : NoDup (map fst (t_lines t)) -> In (n, c) (t_lines t) -> In (m, c) (t_lines t) -> n <> m ->
  new_line t (LineName n) = Ok l -> new_line t (LineName m) = Ok l' ->
  equal l (Num c) = true /\ equal l' (Num c) = true /\ equal l (Line l') = false /\ less l (Line l') = Ok false /\ less l' (Line l) = Ok false.
Proof.
  intros ND Hn Hm N El El'. rewrite (new_line_name t n c ND Hn) in El. rewrite (new_line_name t m c ND Hm) in El'.
  assert (l = {| l_code := c; l_name := n |}) as -> by congruence. assert (l' = {| l_code := c; l_name := m |}) as -> by congruence.
  cbn. rewrite Z.eqb_refl, Z.ltb_irrefl. repeat split; try reflexivity. now apply String.eqb_neq.
Qed.

(* ---- composites ---- *)
Lemma insertZ_in z x l : In z (insertZ x l) <-> z = x \/ In z l.
Proof. induction l as [|y l IH]; cbn; [intuition|]. destruct (x <=? y)%Z; cbn; [intuition|]. rewrite IH. intuition. Qed.
Lemma sortZ_in z l : In z (sortZ l) <-> In z l.
Proof. unfold sortZ. induction l as [|x l IH]; cbn; [tauto|]. rewrite insertZ_in, IH. intuition. Qed.
Lemma insertZ_sorted x l : StronglySorted Z.le l -> StronglySorted Z.le (insertZ x l).
Proof.
  induction l as [|y l IH]; intros H; cbn; [repeat constructor|]. inversion H as [|? ? H1 H2]; subst. destruct (x <=? y)%Z eqn:E.
  - apply Z.leb_le in E. constructor; [assumption|]. constructor; [assumption|]. rewrite Forall_forall in *. intros z Hz. specialize (H2 z Hz). lia.
  - apply Z.leb_gt in E. constructor; [now apply IH|]. rewrite Forall_forall in *. intros z Hz. apply insertZ_in in Hz. destruct Hz as [-> |Hz]; [lia|now apply H2].
Qed.
Lemma sortZ_sorted l : StronglySorted Z.le (sortZ l).
Proof. unfold sortZ. induction l as [|x l IH]; cbn; [constructor|now apply insertZ_sorted]. Qed.
Lemma lookup_assign_Z {V} (k k' : Z) (v : V) d : lookup Z.eqb k (assign Z.eqb k' v d) = if (k =? k')%Z then Some v else lookup Z.eqb k d.
Proof.
  induction d as [|[a b] d IH]; cbn; [now destruct (k =? k')%Z|]. destruct (k' =? a)%Z eqn:E; cbn.
  - apply Z.eqb_eq in E. subst. now destruct (k =? a)%Z.
  - rewrite IH. destruct (k =? a)%Z eqn:E'; [|reflexivity]. apply Z.eqb_eq in E'. subst. now rewrite Z.eqb_sym, E.
Qed.
Definition comps (r : list (Z * list Z)) (l : Z) : list Z := match lookup Z.eqb l r with Some ks => ks | None => [] end.
Definition good (r : list (Z * list Z)) : Prop := forall l, StronglySorted Z.le (comps r l).
Lemma add_composite_spec k r l : good r ->
  good (add_composite k r l) /\ forall l' k', In k' (comps (add_composite k r l) l') <-> In k' (comps r l') \/ (l' = l /\ k' = k).
Proof.
  intros G. unfold add_composite. destruct (lookup Z.eqb l r) as [ks|] eqn:E.
  - split.
    + intros l'. unfold comps. rewrite lookup_assign_Z. destruct (l' =? l)%Z; [apply sortZ_sorted|apply G].
    + intros l' k'. unfold comps at 1. rewrite lookup_assign_Z. destruct (l' =? l)%Z eqn:X; [apply Z.eqb_eq in X; subst|apply Z.eqb_neq in X].
      * rewrite sortZ_in, in_app_iff. unfold comps. rewrite E. cbn. intuition.
      * change (match lookup Z.eqb l' r with Some ks0 => ks0 | None => [] end) with (comps r l'). tauto.
  - split.
    + intros l'. unfold comps. rewrite lookup_assign_Z. destruct (l' =? l)%Z; [repeat constructor|apply G].
    + intros l' k'. unfold comps at 1. rewrite lookup_assign_Z. destruct (l' =? l)%Z eqn:X; [apply Z.eqb_eq in X; subst|apply Z.eqb_neq in X].
      * unfold comps. rewrite E. cbn. intuition.
      * change (match lookup Z.eqb l' r with Some ks0 => ks0 | None => [] end) with (comps r l'). tauto.
Qed.
Lemma add_list_spec k ls : forall r, good r ->
  good (fold_left (add_composite k) ls r) /\
  forall l' k', In k' (comps (fold_left (add_composite k) ls r) l') <-> In k' (comps r l') \/ (In l' ls /\ k' = k).
Proof.
  induction ls as [|l ls IH]; intros r G; cbn [fold_left]; [split; [assumption|]; intros; cbn; tauto|].
  destruct (add_composite_spec k r l G) as [G1 I1]. destruct (IH _ G1) as [G2 I2]. split; [assumption|]. intros l' k'. rewrite I2, I1. cbn. intuition.
Qed.
Lemma rcomposites_spec t : good (rcomposites t) /\
  forall l k, In k (composites_of t l) <-> exists ls, In (k, ls) (t_composites t) /\ In l ls.
Proof.
  unfold composites_of. change (forall l k, In k (match lookup Z.eqb l (rcomposites t) with Some l0 => l0 | None => [] end) <-> exists ls, In (k, ls) (t_composites t) /\ In l ls)
    with (forall l k, In k (comps (rcomposites t) l) <-> exists ls, In (k, ls) (t_composites t) /\ In l ls).
  unfold rcomposites. assert (forall cs r, good r -> good (fold_left (fun r p => fold_left (add_composite (fst p)) (snd p) r) cs r) /\
     forall l k, In k (comps (fold_left (fun r p => fold_left (add_composite (fst p)) (snd p) r) cs r) l) <-> In k (comps r l) \/ exists ls, In (k, ls) cs /\ In l ls) as H.
  { induction cs as [|[k0 ls0] cs IH]; intros r G; cbn [fold_left].
    - split; [assumption|]. intros l k. split; [tauto|]. intros [H|(ls & [] & _)]. assumption.
    - cbn [fst snd]. destruct (add_list_spec k0 ls0 r G) as [G1 I1]. destruct (IH _ G1) as [G2 I2]. split; [assumption|].
      intros l k. rewrite I2, I1. split.
      + intros [[H|[H ->]]|(ls & H & L)]; [now left|right; exists ls0; split; [now left|assumption]|right; exists ls; split; [now right|assumption]].
      + intros [H|(ls & [H|H] & L)]; [left; now left| |right; now exists ls].
        assert (k0 = k /\ ls0 = ls) as [-> ->] by (split; congruence). left. right. split; [assumption|reflexivity]. }
  destruct (H (t_composites t) []) as [G I]; [intros l; constructor|]. split; [assumption|]. intros l k. rewrite I. split; [|now right].
  intros [[]|X]. assumption.
Qed.

(* the first of a sorted list that satisfies something is the smallest *)
Lemma energy_of_spec t z : forall cs, StronglySorted Z.le cs ->
  (exists k, In k cs /\ (k < 0)%Z /\ t_lineenergy t z k <> 0%Qc /\ energy_of t z cs = t_lineenergy t z k /\
     forall k', In k' cs -> (k' < 0)%Z -> t_lineenergy t z k' <> 0%Qc -> (k <= k')%Z) \/
  ((forall k, In k cs -> (k < 0)%Z -> t_lineenergy t z k = 0%Qc) /\ energy_of t z cs = 0%Qc).
Proof.
  induction cs as [|c cs IH]; intros SS; cbn [energy_of]; [right; split; [intros ? []|reflexivity]|]. inversion SS as [|? ? S1 S2]; subst. rewrite Forall_forall in S2.
  destruct (0 <=? c)%Z eqn:E; [apply Z.leb_le in E|apply Z.leb_gt in E].
  - destruct (IH S1) as [(k & I & N & V & EQ & M)|[A EQ]].
    + exfalso. specialize (S2 k I). lia.
    + right. split; [|assumption]. intros k [<-|H] N; [lia|now apply A].
  - destruct (Qc_eqb (t_lineenergy t z c) 0) eqn:Q.
    + apply Qc_eqb_spec in Q. destruct (IH S1) as [(k & I & N & V & EQ & M)|[A EQ]].
      * left. exists k. split; [now right|]. split; [assumption|]. split; [assumption|]. split; [assumption|]. intros k' [<-|H] N' V'; [contradiction|now apply M].
      * right. split; [|assumption]. intros k [<-|H] N; [assumption|now apply A].
    + apply Qc_eqb_false in Q. left. exists c. split; [now left|]. split; [assumption|]. split; [assumption|]. split; [reflexivity|].
      intros k' [<-|H] N' V'; [lia|now apply S2].
Qed.
Lemma line_energy_own t z code : t_lineenergy t z code <> 0%Qc -> line_energy t z code = t_lineenergy t z code.
Proof. intros H. unfold line_energy. apply Qc_eqb_false in H. now rewrite H. Qed.
Lemma sorted_comps t code : StronglySorted Z.le (composites_of t code).
Proof. destruct (rcomposites_spec t) as [G _]. exact (G code). Qed.
Lemma in_comps t code k : In k (composites_of t code) <-> composite (t_composites t) k code.
Proof. destruct (rcomposites_spec t) as [_ I]. apply I. Qed.
Lemma line_energy_composite t z code : t_lineenergy t z code = 0%Qc ->
  (exists k, composite (t_composites t) k code /\ (k < 0)%Z /\ t_lineenergy t z k <> 0%Qc /\ line_energy t z code = t_lineenergy t z k /\
     forall k', composite (t_composites t) k' code -> (k' < 0)%Z -> t_lineenergy t z k' <> 0%Qc -> (k <= k')%Z) \/
  ((forall k, composite (t_composites t) k code -> (k < 0)%Z -> t_lineenergy t z k = 0%Qc) /\ line_energy t z code = 0%Qc).
Proof.
  intros H. unfold line_energy. rewrite H. change (Qc_eqb 0 0) with true. cbv iota.
  destruct (energy_of_spec t z _ (sorted_comps t code)) as [(k & I & N & V & EQ & M)|[A EQ]].
  - left. exists k. split; [now apply in_comps|]. split; [assumption|]. split; [assumption|]. split; [assumption|]. intros k' C. apply M. now apply in_comps.
  - right. split; [|assumption]. intros k C. apply A. now apply in_comps.
Qed.
Lemma radrate_of_spec t z : forall cs, StronglySorted Z.le cs ->
  (exists k, In k cs /\ (k < 0)%Z /\ t_radrate t z k <> 0%Qc /\
     radrate_of t z cs = (t_radrate t z k / Qc_of_Z (Z.of_nat (List.length (match lookup Z.eqb k (t_composites t) with Some l => l | None => [] end))))%Qc /\
     forall k', In k' cs -> (k' < 0)%Z -> t_radrate t z k' <> 0%Qc -> (k <= k')%Z) \/
  ((forall k, In k cs -> (k < 0)%Z -> t_radrate t z k = 0%Qc) /\ radrate_of t z cs = 0%Qc).
Proof.
  induction cs as [|c cs IH]; intros SS; cbn [radrate_of]; [right; split; [intros ? []|reflexivity]|]. inversion SS as [|? ? S1 S2]; subst. rewrite Forall_forall in S2.
  destruct (0 <=? c)%Z eqn:E; [apply Z.leb_le in E|apply Z.leb_gt in E].
  - destruct (IH S1) as [(k & I & N & V & EQ & M)|[A EQ]].
    + exfalso. specialize (S2 k I). lia.
    + right. split; [|assumption]. intros k [<-|H] N; [lia|now apply A].
  - destruct (Qc_eqb (t_radrate t z c) 0) eqn:Q.
    + apply Qc_eqb_spec in Q. destruct (IH S1) as [(k & I & N & V & EQ & M)|[A EQ]].
      * left. exists k. split; [now right|]. split; [assumption|]. split; [assumption|]. split; [assumption|]. intros k' [<-|H] N' V'; [contradiction|now apply M].
      * right. split; [|assumption]. intros k [<-|H] N; [assumption|now apply A].
    + apply Qc_eqb_false in Q. left. exists c. split; [now left|]. split; [assumption|]. split; [assumption|]. split; [reflexivity|].
      intros k' [<-|H] N' V'; [lia|now apply S2].
Qed.
Lemma lookupZ_in {V} (k : Z) (d : list (Z * V)) v : NoDup (map fst d) -> In (k, v) d -> lookup Z.eqb k d = Some v.
Proof.
  induction d as [|[k' v'] d IH]; cbn [lookup map fst]; intros ND H; [contradiction|]. inversion ND; subst. destruct (k =? k')%Z eqn:E.
  - apply Z.eqb_eq in E. subst. destruct H as [H|H]; [congruence|]. exfalso. apply H2. apply in_map_iff. now exists (k', v).
  - apply Z.eqb_neq in E. destruct H as [H|H]; [congruence|now apply IH].
Qed.
Lemma line_radrate_own t z code : t_radrate t z code <> 0%Qc -> line_radrate t z code = t_radrate t z code.
Proof. intros H. unfold line_radrate. apply Qc_eqb_false in H. now rewrite H. Qed.
Lemma line_radrate_composite t z code : NoDup (map fst (t_composites t)) -> t_radrate t z code = 0%Qc ->
  (exists k ls, In (k, ls) (t_composites t) /\ In code ls /\ (k < 0)%Z /\ t_radrate t z k <> 0%Qc /\
     (line_radrate t z code * Qc_of_Z (Z.of_nat (List.length ls)) = t_radrate t z k)%Qc /\
     forall k', composite (t_composites t) k' code -> (k' < 0)%Z -> t_radrate t z k' <> 0%Qc -> (k <= k')%Z) \/
  ((forall k, composite (t_composites t) k code -> (k < 0)%Z -> t_radrate t z k = 0%Qc) /\ line_radrate t z code = 0%Qc).
Proof.
  intros ND H. unfold line_radrate. rewrite H. change (Qc_eqb 0 0) with true. cbv iota.
  destruct (radrate_of_spec t z _ (sorted_comps t code)) as [(k & I & N & V & EQ & M)|[A EQ]].
  - left. apply in_comps in I. destruct I as (ls & I & L). exists k, ls. split; [assumption|]. split; [assumption|]. split; [assumption|]. split; [assumption|]. split.
    + rewrite EQ, (lookupZ_in k _ ls ND I). assert (Qc_of_Z (Z.of_nat (List.length ls)) <> 0%Qc) as NZ.
      { destruct ls as [|x ls]; [contradiction|]. intros Q. change 0%Qc with (Qc_of_Z 0) in Q. apply Qc_of_Z_inj in Q. cbn [List.length] in Q. lia. }
      revert NZ. generalize (Qc_of_Z (Z.of_nat (List.length ls))), (t_radrate t z k). intros a b NZ. field. assumption.
    + intros k' C. apply M. now apply in_comps.
  - right. split; [|assumption]. intros k C. apply A. now apply in_comps.
Qed.

(* ---- groups ---- *)
Lemma groupname_spec t l s k names :
  shell_of t l = Ok s -> composite (t_composites t) k (l_code l) -> (forall k', composite (t_composites t) k' (l_code l) -> (k <= k')%Z) -> code_to_line t k = Ok names ->
  groupname t l = match names with [] => Err IndexError | n :: _ => Ok (if String.eqb n "KA" || String.eqb n "KB" then n else s) end.
Proof.
  intros Hs Hk M Hn. unfold groupname. rewrite Hs. cbn [bind]. pose proof (sorted_comps t (l_code l)) as SS.
  assert (forall k', In k' (composites_of t (l_code l)) <-> composite (t_composites t) k' (l_code l)) as I by (intros; apply in_comps).
  unfold composites_of in *. destruct (lookup Z.eqb (l_code l) (rcomposites t)) as [ks|] eqn:E.
  - destruct ks as [|k0 ks]; [exfalso; now apply (I k)|].
    assert (k0 = k) as ->.
    { assert (In k (k0 :: ks)) as Ik by now apply I. pose proof (M k0 (proj1 (I k0) (or_introl eq_refl))). inversion SS as [|? ? S1 S2]; subst. rewrite Forall_forall in S2.
      destruct Ik as [->|Ik]; [reflexivity|]. specialize (S2 k Ik). lia. }
    rewrite Hn. cbn [bind]. destruct names as [|n names]; [reflexivity|]. now destruct (_ || _).
  - exfalso. now apply (I k).
Qed.
Lemma groupname_plain t l s : shell_of t l = Ok s -> (forall k, ~ composite (t_composites t) k (l_code l)) -> groupname t l = Ok s.
Proof.
  intros Hs N. unfold groupname. rewrite Hs. cbn [bind]. destruct (lookup Z.eqb (l_code l) (rcomposites t)) as [ks|] eqn:E; [|reflexivity].
  (* a stored list is never empty *)
  assert (forall r, (forall x, lookup Z.eqb x r <> Some []) -> forall k y, (forall x, lookup Z.eqb x (add_composite k r y) <> Some [])) as ST.
  { intros r H k y x. unfold add_composite. destruct (lookup Z.eqb y r) as [ks'|] eqn:X; rewrite lookup_assign_Z; destruct (x =? y)%Z; try apply H; [|discriminate].
    intros Q. assert (sortZ (ks' ++ [k]) = []) as Q' by congruence. assert (In k []) as []. rewrite <- Q'. apply sortZ_in, in_or_app. right. now left. }
  assert (forall x, lookup Z.eqb x (rcomposites t) <> Some []) as NE.
  { unfold rcomposites. assert (forall cs r, (forall x, lookup Z.eqb x r <> Some []) -> forall x, lookup Z.eqb x (fold_left (fun r p => fold_left (add_composite (fst p)) (snd p) r) cs r) <> Some []) as H.
    { induction cs as [|[k0 ls0] cs IH]; intros r G; cbn [fold_left]; [assumption|]. apply IH. cbn [fst snd]. revert r G. induction ls0 as [|y ls0 IH0]; intros r G; cbn [fold_left]; [assumption|].
      apply IH0. now apply ST. }
    apply H. discriminate. }
  destruct ks as [|k ks]; [now destruct (NE (l_code l))|]. exfalso. apply (N k). apply in_comps. unfold composites_of. rewrite E. now left.
Qed.
Lemma find_first {A} (f : A -> bool) l x : find f l = Some x -> exists a b, l = a ++ x :: b /\ f x = true /\ forall y, In y a -> f y = false.
Proof.
  induction l as [|y l IH]; cbn; [discriminate|]. destruct (f y) eqn:E.
  - intros H. assert (y = x) as -> by congruence. exists [], l. split; [reflexivity|]. split; [assumption|]. intros ? [].
  - intros H. destruct (IH H) as (a & b & -> & F & N). exists (y :: a), b. split; [reflexivity|]. split; [assumption|]. intros z [<-|Hz]; [assumption|now apply N].
Qed.
Lemma prefix_cons c p c' s : String.prefix (String c p) (String c' s) = if ascii_dec c c' then String.prefix p s else false.
Proof. reflexivity. Qed.
Lemma prefix_app p s : String.prefix p s = true <-> exists r, s = (p ++ r)%string.
Proof.
  revert s. induction p as [|c p IH]; intros s.
  - split; [intros _; now exists s|intros _; destruct s; reflexivity].
  - destruct s as [|c' s]; [split; [discriminate|intros (r & H); discriminate]|]. rewrite prefix_cons. destruct (ascii_dec c c') as [<-|N].
    + rewrite IH. cbn [append]. split; intros (r & H); exists r; congruence.
    + split; [discriminate|]. intros (r & H). cbn [append] in H. congruence.
Qed.
Lemma shell_of_spec t l s : shell_of t l = Ok s -> In s (map snd (t_shells t)) /\ exists r, l_name l = (s ++ r)%string.
Proof.
  unfold shell_of. destruct (find _ _) as [x|] eqn:E; [|discriminate]. intros H. assert (x = s) as -> by congruence.
  apply find_some in E. destruct E as [I P]. split; [assumption|]. now apply prefix_app.
Qed.
Lemma shell_of_none t l : (forall s r, In s (map snd (t_shells t)) -> l_name l <> (s ++ r)%string) -> shell_of t l = Err RuntimeError.
Proof.
  intros H. unfold shell_of. destruct (find _ _) as [x|] eqn:E; [|reflexivity]. apply find_some in E. destruct E as [I P]. apply prefix_app in P.
  destruct P as [r P]. now destruct (H x r I).
Qed.

(* ---- selection of lines ---- *)
Lemma factory_bounds t shells fl z lo hi r : line_factory t shells fl (Some (z, lo, hi)) = Ok r ->
  exists all, line_factory t shells fl None = Ok all /\
    forall l, In l r <-> In l all /\ (lo <= line_energy t z (l_code l))%Qc /\ (line_energy t z (l_code l) <= hi)%Qc /\ line_energy t z (l_code l) <> 0%Qc.
Proof.
  unfold line_factory. destruct (match fl with None | Some [] => _ | Some _ => _ end) as [lines|e]; [|discriminate]. cbn [bind].
  destruct (match shells with None => _ | Some _ => _ end) as [all|e]; [|discriminate]. cbn [bind]. intros H. exists all. split; [reflexivity|].
  intros l. assert (r = filter (fun line => Qc_leb lo (line_energy t z (l_code line)) && Qc_leb (line_energy t z (l_code line)) hi && negb (Qc_eqb (line_energy t z (l_code line)) 0)) all) as -> by congruence.
  rewrite filter_In, !andb_true_iff, negb_true_iff, !Qc_leb_le, Qc_eqb_false. tauto.
Qed.
Lemma anyM_true {A} (f : A -> result bool) l : anyM f l = Ok true -> exists x, In x l /\ f x = Ok true.
Proof.
  induction l as [|x l IH]; cbn; [discriminate|]. destruct (f x) as [[]|e] eqn:E; cbn; try discriminate.
  - intros _. exists x. split; [now left|assumption].
  - intros H. destruct (IH H) as (y & I & Y). exists y. split; [now right|assumption].
Qed.
Lemma anyM_false {A} (f : A -> result bool) l : anyM f l = Ok false -> forall x, In x l -> f x = Ok false.
Proof.
  induction l as [|x l IH]; cbn; [intros _ ? []|]. destruct (f x) as [[]|e] eqn:E; cbn; try discriminate.
  intros H y [<-|I]; [assumption|now apply IH].
Qed.
Lemma filter_lines_spec f l r : filter_lines f l = Ok r -> (forall x, In x l -> exists b, f x = Ok b) /\ forall x, In x r <-> In x l /\ f x = Ok true.
Proof.
  revert r. induction l as [|x l IH]; cbn; intros r H.
  - assert (r = []) as -> by congruence. split; [intros ? []|]. intros x. split; [intros []|intros [[] _]].
  - destruct (f x) as [b|e] eqn:E; [|discriminate]. cbn in H. destruct (filter_lines f l) as [r'|e]; [|discriminate]. cbn in H. destruct (IH _ eq_refl) as [A I]. split.
    + intros y [<-|Hy]; [now exists b|now apply A].
    + intros y. destruct b.
      * assert (r = x :: r') as -> by congruence. cbn. rewrite I. split; [intros [<-|[P Q]]; [split; [now left|assumption]|split; [now right|assumption]]|].
        intros [[<-|P] Q]; [now left|right; split; assumption].
      * assert (r = r') as -> by congruence. rewrite I. split; [intros [P Q]; split; [now right|assumption]|]. intros [[<-|P] Q]; [congruence|split; assumption].
Qed.
Lemma factory_shells t shells fl r : line_factory t (Some shells) fl None = Ok r ->
  exists all names, line_factory t None fl None = Ok all /\ mapM (getshellname t) shells = Ok names /\
    forall l, In l r <-> In l all /\ exists code s n rest, In code (decompose t (l_code l)) /\ In s names /\ getlinename t (LineCode code) = Ok n /\ n = (s ++ rest)%string.
Proof.
  unfold line_factory. destruct (match fl with None | Some [] => _ | Some _ => _ end) as [lines|e]; [|discriminate]. cbn [bind].
  destruct (mapM (getshellname t) shells) as [names|e]; [|discriminate]. cbn [bind].
  destruct (filter_lines _ lines) as [r'|e] eqn:F; [|discriminate]. cbn [bind]. intros H. assert (r' = r) as -> by congruence.
  exists lines, names. split; [reflexivity|]. split; [reflexivity|]. intros l. destruct (filter_lines_spec _ _ _ F) as [A I]. rewrite I. split.
  - intros [L X]. split; [assumption|]. apply anyM_true in X. destruct X as (code & Hc & X). apply anyM_true in X. destruct X as (s & Hs & X).
    destruct (getlinename t (LineCode code)) as [n|e] eqn:N; [|discriminate]. cbn [bind] in X. assert (String.prefix s n = true) as P by congruence.
    apply prefix_app in P. destruct P as [rest P]. exists code, s, n, rest. repeat split; assumption.
  - intros (L & code & s & n & rest & Hc & Hs & N & P). split; [assumption|]. destruct (A l L) as [b B]. rewrite B. destruct b; [reflexivity|]. exfalso.
    pose proof (anyM_false _ _ B code Hc) as X. cbv beta in X. pose proof (anyM_false _ _ X s Hs) as Y. cbv beta in Y. rewrite N in Y. cbn [bind] in Y.
    assert (String.prefix s n = true) as Q by (apply prefix_app; now exists rest). congruence.
Qed.

(* ---- yields ---- *)
Lemma assign_fresh {V} (k : string) (v : V) d : ~ In k (map fst d) -> assign String.eqb k v d = d ++ [(k, v)].
Proof.
  induction d as [|[a b] d IH]; cbn; intros H; [reflexivity|]. destruct (String.eqb k a) eqn:E; [apply String.eqb_eq in E; subst; tauto|].
  f_equal. apply IH. tauto.
Qed.
Lemma fold_assign_fresh (g : fluoline -> Qc) l : forall d, NoDup (map fst d ++ map l_name l) ->
  fold_left (fun d x => assign String.eqb (l_name x) (g x) d) l d = d ++ map (fun x => (l_name x, g x)) l.
Proof.
  induction l as [|x l IH]; intros d H; cbn [fold_left map]; [now rewrite app_nil_r|].
  cbn [map] in H. rewrite assign_fresh.
  - rewrite IH; [now rewrite <- app_assoc|]. rewrite map_app. cbn [map fst]. rewrite <- app_assoc. exact H.
  - apply NoDup_remove_2 in H. rewrite in_app_iff in H. tauto.
Qed.
Lemma decomposed_spec t z fy s s' d : decomposed_yield t z fy s = (s', Ok d) ->
  exists l, s_lines s' = Some l /\ (NoDup (map l_name l) ->
    (forall n q, In (n, q) d <-> exists x, In x l /\ l_name x = n /\ q = (fy * line_radrate t z (l_code x))%Qc) /\
    qsum (map snd d) = total_yield t z fy s').
Proof.
  unfold decomposed_yield. destruct (fluolines t s) as [s1 r] eqn:E. intros H. assert (s1 = s') as -> by congruence.
  destruct r as [l|e]; [|cbn in H; congruence]. cbn [bind] in H.
  assert (s_lines s' = Some l) as SL.
  { unfold fluolines in E. destruct (s_lines s) as [l0|] eqn:L.
    - assert (s = s' /\ l0 = l) as [<- <-] by (split; congruence). assumption.
    - destruct (line_factory t _ None None) as [l0|e]; [|congruence]. assert (l0 = l) as -> by congruence. assert (s' = {| s_code := s_code s; s_name := s_name s; s_lines := Some l |}) as -> by congruence. reflexivity. }
  exists l. split; [assumption|]. intros ND.
  pose proof (fold_assign_fresh (fun x => (fy * line_radrate t z (l_code x))%Qc) l [] ND) as F. cbn [app] in F.
  assert (d = map (fun x => (l_name x, (fy * line_radrate t z (l_code x))%Qc)) l) as -> by congruence. split.
  - intros n q. rewrite in_map_iff. split; intros (x & A); exists x; [destruct A as [A B]; split; [assumption|split; congruence]|destruct A as (A & B & C); split; [congruence|assumption]].
  - unfold total_yield, shell_radrate. rewrite SL, map_map. cbn [snd]. clear. induction l as [|x l IH]; cbn [map qsum fold_right]; [ring|].
    unfold qsum in IH. rewrite IH. ring.
Qed.
Lemma fluolines_stored t s s' l : fluolines t s = (s', Ok l) -> fluolines t s' = (s', Ok l) /\ s_code s' = s_code s /\ s_name s' = s_name s.
Proof.
  unfold fluolines. destruct (s_lines s) as [l0|] eqn:L.
  - intros H. assert (s = s' /\ l0 = l) as [<- <-] by (split; congruence). rewrite L. auto.
  - destruct (line_factory t _ None None) as [l0|e]; [|discriminate]. intros H. assert (l0 = l) as -> by congruence.
    assert (s' = {| s_code := s_code s; s_name := s_name s; s_lines := Some l |}) as -> by congruence. auto.
Qed.

(* ---- all lines ---- *)
Lemma distinct_in l : NoDup (map l_name (distinct l)) /\ (forall x, In x (distinct l) -> In x l) /\
  (forall x, In x l -> exists y, In y (distinct l) /\ l_name y = l_name x).
Proof.
  induction l as [|x l (ND & A & B)]; cbn [distinct]; [split; [constructor|split; intros ? []]|].
  destruct (existsb (fun y => String.eqb (l_name y) (l_name x)) l) eqn:E.
  - split; [assumption|]. split; [intros y Hy; right; now apply A|]. intros y [<-|Hy]; [|now apply B].
    apply existsb_exists in E. destruct E as (y & Hy & E). apply String.eqb_eq in E. destruct (B y Hy) as (w & Hw & Ew). exists w. split; [assumption|congruence].
  - split; [|split].
    + cbn [map]. constructor; [|assumption]. intros Q. apply in_map_iff in Q. destruct Q as (y & Ey & Hy).
      assert (existsb (fun y => String.eqb (l_name y) (l_name x)) l = true); [|congruence]. apply existsb_exists. exists y. split; [now apply A|]. now apply String.eqb_eq.
    + intros y [<-|Hy]; [now left|right; now apply A].
    + intros y [<-|Hy]; [exists x; split; [now left|reflexivity]|]. destruct (B y Hy) as (w & Hw & Ew). exists w. split; [now right|assumption].
Qed.
Lemma code_range_in l r : code_range l = Ok r -> forall z, In z r <-> exists a b, In a l /\ In b l /\ (a <= z <= b)%Z.
Proof.
  unfold code_range. destruct l as [|c l]; [discriminate|]. cbv zeta. set (hi := fold_left Z.max l c). set (lo := fold_left Z.min l c). intros H z.
  assert (forall l c, In (fold_left Z.max l c) (c :: l) /\ forall x, In x (c :: l) -> (x <= fold_left Z.max l c)%Z) as HI.
  { clear. induction l as [|y l IH]; intros c; cbn [fold_left]; [split; [now left|intros x [<-|[]]; lia]|]. destruct (IH (Z.max c y)) as [A B]. split.
    - destruct A as [A|A]; [|right; now right]. destruct (Z.max_spec c y) as [[_ M]|[_ M]]; rewrite M in A; [right; left; now rewrite M|left; now rewrite M].
    - intros x [<-|[<-|X]]; [specialize (B _ (or_introl eq_refl)); lia|specialize (B _ (or_introl eq_refl)); lia|apply B; now right]. }
  assert (forall l c, In (fold_left Z.min l c) (c :: l) /\ forall x, In x (c :: l) -> (fold_left Z.min l c <= x)%Z) as LO.
  { clear. induction l as [|y l IH]; intros c; cbn [fold_left]; [split; [now left|intros x [<-|[]]; lia]|]. destruct (IH (Z.min c y)) as [A B]. split.
    - destruct A as [A|A]; [|right; now right]. destruct (Z.min_spec c y) as [[_ M]|[_ M]]; rewrite M in A; [left; now rewrite M|right; left; now rewrite M].
    - intros x [<-|[<-|X]]; [specialize (B _ (or_introl eq_refl)); lia|specialize (B _ (or_introl eq_refl)); lia|apply B; now right]. }
  destruct (HI l c) as [HA HB]. destruct (LO l c) as [LA LB]. fold hi in HA, HB. fold lo in LA, LB. clearbody hi lo.
  assert (r = map (fun i => (hi - Z.of_nat i)%Z) (seq 0 (Z.to_nat (hi - lo + 1)))) as -> by congruence. rewrite in_map_iff. split.
  - intros (i & <- & Hi). apply in_seq in Hi. exists lo, hi. split; [assumption|]. split; [assumption|]. lia.
  - intros (a & b & Ha & Hb & Q). specialize (HB b Hb). specialize (LB a Ha). exists (Z.to_nat (hi - z)). split; [lia|]. apply in_seq. lia.
Qed.
Lemma mapM_in {A B} (f : A -> result B) l r : mapM f l = Ok r -> forall y, In y r <-> exists x, In x l /\ f x = Ok y.
Proof.
  revert r. induction l as [|x l IH]; cbn; intros r H y.
  - assert (r = []) as -> by congruence. split; [intros []|intros (x & [] & _)].
  - destruct (f x) as [b|e] eqn:E; [|discriminate]. cbn in H. destruct (mapM f l) as [r'|e]; [|discriminate]. cbn in H. assert (r = b :: r') as -> by congruence.
    cbn. rewrite (IH r' eq_refl). split.
    + intros [<-|(w & Hw & Ew)]; [exists x; split; [now left|assumption]|exists w; split; [now right|assumption]].
    + intros (w & [<-|Hw] & Ew); [left; congruence|right; now exists w].
Qed.
Lemma all_lines_spec t l : NoDup (map fst (t_lines t)) -> all_lines t = Ok l -> NoDup (map l_name l) /\
  forall x, In x l <-> exists a b c code, In a (map snd (t_lines t)) /\ In b (map snd (t_lines t)) /\ (a <= c <= b)%Z /\ In code (decompose t c) /\
    new_line t (LineCode code) = Ok x.
Proof.
  intros NDt. unfold all_lines. destruct (code_range (codes t)) as [r|e] eqn:R; [|discriminate]. cbn [bind].
  destruct (mapM _ (flat_map (decompose t) r)) as [l0|e] eqn:M; [|discriminate]. cbn [bind]. intros H. assert (l = distinct l0) as -> by congruence.
  destruct (distinct_in l0) as (ND & A & B). split; [assumption|]. pose proof (mapM_in _ _ _ M) as MI. pose proof (code_range_in _ _ R) as RI. cbv beta in MI.
  assert (forall x, In x l0 <-> exists a b c code, In a (map snd (t_lines t)) /\ In b (map snd (t_lines t)) /\ (a <= c <= b)%Z /\ In code (decompose t c) /\ new_line t (LineCode code) = Ok x) as I0.
  { intros x. rewrite MI. split.
    - intros (code & Hc & Ec). apply in_flat_map in Hc. destruct Hc as (c & Hc & Dc). apply RI in Hc. destruct Hc as (a & b & Ha & Hb & Q). exists a, b, c, code. auto.
    - intros (a & b & c & code & Ha & Hb & Q & Dc & Ec). exists code. split; [|assumption]. apply in_flat_map. exists c. split; [|assumption]. apply RI. now exists a, b. }
  intros x. rewrite <- I0. split; [apply A|]. intros Hx. destruct (B x Hx) as (y & Hy & Ey).
  assert (forall u v, In u l0 -> In v l0 -> l_name u = l_name v -> u = v) as INJ.
  { intros u v Hu Hv E. apply I0 in Hu. apply I0 in Hv. destruct Hu as (_ & _ & _ & cu & _ & _ & _ & _ & Eu). destruct Hv as (_ & _ & _ & cv & _ & _ & _ & _ & Ev).
    apply new_line_code in Eu. apply new_line_code in Ev. destruct Eu as [Cu Iu]. destruct Ev as [Cv Iv]. rewrite E in Iu.
    apply (lookup_in _ _ _ NDt) in Iu. apply (lookup_in _ _ _ NDt) in Iv. destruct u as [uc un], v as [vc vn]. cbn in *. subst. f_equal. congruence. }
  assert (y = x) as <- by (apply INJ; auto). assumption.
Qed.
(* ---- shells from codes and names; order of lines ---- *)
Lemma zlookup_in {V} (d : list (Z * V)) k v : NoDup (map fst d) -> In (k, v) d -> lookup Z.eqb k d = Some v.
Proof.
  induction d as [|[k' v'] d IH]; intros ND H; [destruct H|]. cbn [map fst] in ND. inversion ND as [|? ? N ND']. subst. cbn [lookup]. destruct H as [H|H].
  - assert (k' = k) as -> by congruence. assert (v' = v) as -> by congruence. now rewrite Z.eqb_refl.
  - destruct (Z.eqb k k') eqn:E; [|now apply IH]. apply Z.eqb_eq in E. subst k'. exfalso. apply N. apply in_map_iff. exists (k, v). auto.
Qed.
Lemma zlookup_none {V} (d : list (Z * V)) k : ~ In k (map fst d) -> lookup Z.eqb k d = None.
Proof.
  induction d as [|[k' v'] d IH]; intros N; [reflexivity|]. cbn [lookup map fst In] in *. destruct (Z.eqb k k') eqn:E; [apply Z.eqb_eq in E; subst; exfalso; apply N; now left|]. apply IH. tauto.
Qed.
Lemma slookup_none {V} (d : list (string * V)) k : ~ In k (map fst d) -> lookup String.eqb k d = None.
Proof.
  induction d as [|[k' v'] d IH]; intros N; [reflexivity|]. cbn [lookup map fst In] in *. destruct (String.eqb k k') eqn:E; [apply String.eqb_eq in E; subst; exfalso; apply N; now left|]. apply IH. tauto.
Qed.
Lemma names_of_shells t : map fst (shell_to_code t) = map snd (t_shells t).
Proof. unfold shell_to_code. rewrite map_map. reflexivity. Qed.
Lemma new_shell_code t code name : NoDup (map fst (t_shells t)) -> In (code, name) (t_shells t) ->
  new_shell t (ShellCode code) None = Ok {| s_code := code; s_name := name; s_lines := None |}.
Proof. intros ND H. unfold new_shell, getshellcode, getshellname, mem. rewrite (zlookup_in _ _ _ ND H). reflexivity. Qed.
Lemma new_shell_name t code name : NoDup (map snd (t_shells t)) -> In (code, name) (t_shells t) ->
  new_shell t (ShellName name) None = Ok {| s_code := code; s_name := name; s_lines := None |}.
Proof.
  intros ND H. assert (lookup String.eqb name (shell_to_code t) = Some code) as L.
  { apply lookup_in; [rewrite names_of_shells; exact ND|]. unfold shell_to_code. apply in_map_iff. exists (code, name). auto. }
  unfold new_shell, getshellcode, getshellname, mem. rewrite L. reflexivity.
Qed.
Lemma new_shell_unknown t fl : (forall code, ~ In code (map fst (t_shells t)) -> new_shell t (ShellCode code) fl = Err ValueError) /\
  (forall name, ~ In name (map snd (t_shells t)) -> new_shell t (ShellName name) fl = Err KeyError).
Proof.
  split; intros x N; unfold new_shell, getshellcode, mem.
  - rewrite zlookup_none by exact N. reflexivity.
  - rewrite slookup_none by (rewrite names_of_shells; exact N). reflexivity.
Qed.
Lemma less_spec l : (forall z, less l (Num z) = Ok true <-> (l_code l < z)%Z) /\ (forall l', less l (Line l') = Ok true <-> (l_code l < l_code l')%Z) /\ (forall s, less l (Text s) = Err TypeError).
Proof.
  assert (forall a b, (Ok (a <? b)%Z : result bool) = Ok true <-> (a < b)%Z) as A.
  { intros a b. rewrite <- Z.ltb_lt. split; congruence. }
  repeat split; intros; cbn in *; try apply A; assumption.
Qed.
