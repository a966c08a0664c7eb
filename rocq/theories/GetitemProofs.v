(* getitem of utils/indexing.py equals indexing the full stack *)
From Verif Require Export IndexingProofs IndexingSpec.
Local Open Scope nat_scope.

Lemma pick_seq {A} (l : list A) : pick l (seq 0 (length l)) = l.
Proof.
  assert (forall pre, pick (pre ++ l) (seq (length pre) (length l)) = l) as H.
  { induction l as [|x l IH]; intros pre; [reflexivity|].
    cbn [length seq]. unfold pick. cbn [flat_map].
    rewrite nth_error_app2, Nat.sub_diag by lia. cbn [nth_error app]. f_equal.
    specialize (IH (pre ++ [x])). rewrite app_length, <- app_assoc in IH. cbn [length app] in IH.
    rewrite Nat.add_1_r in IH. exact IH. }
  apply (H []).
Qed.

Lemma true_positions_all b : forall k, forallb (fun x => x) b = true -> true_positions k b = seq k (length b).
Proof. induction b as [|[] b IH]; intros k H; cbn in *; [reflexivity|f_equal; auto|discriminate]. Qed.
Lemma true_positions_length b : forall k, length (true_positions k b) = length (filter (fun x => x) b).
Proof. induction b as [|[] b IH]; intros k; cbn; auto. Qed.
Lemma true_positions_bound b : forall k, Forall (fun p => p < k + length b) (true_positions k b).
Proof.
  induction b as [|[] b IH]; intros k; cbn; [constructor|constructor; [lia|]|];
  eapply Forall_impl; try apply (IH (S k)); cbn; intros; lia.
Qed.

Lemma compress_pick {A} (l : list A) b : length b = length l ->
  compress l b = pick l (true_positions 0 b).
Proof.
  assert (forall (l : list A) b pre, length b = length l ->
            compress l b = pick (pre ++ l) (true_positions (length pre) b)) as H; [|exact (H l b [])].
  clear. induction l as [|x l IH]; intros [|y b] pre Hl; try discriminate; [reflexivity|].
  cbn in Hl. assert (length b = length l) as Hl' by lia.
  specialize (IH b (pre ++ [x]) Hl'). rewrite app_length, <- app_assoc in IH. cbn [length app] in IH.
  rewrite Nat.add_1_r in IH.
  destruct y; cbn [compress true_positions].
  - unfold pick in *. cbn [flat_map]. rewrite nth_error_app2, Nat.sub_diag by lia. cbn. f_equal. exact IH.
  - exact IH.
Qed.

Lemma norm_bound n z p : norm n z = Ok p -> p < n.
Proof. unfold norm. destruct (py_pos n z) eqn:E; [|discriminate]. intros [= <-]. eapply py_pos_bound; eauto. Qed.
Lemma mapM_norm_bound n l ps : mapM (norm n) l = Ok ps -> Forall (fun p => p < n) ps.
Proof.
  intros H. apply mapM_Ok_Forall2 in H. induction H; constructor; eauto using norm_bound.
Qed.
Lemma resolve_bound n i r : resolve n i = Ok r -> Forall (fun p => p < n) (positions r).
Proof.
  destruct i; cbn; intros H; try discriminate.
  - injection H as <-. constructor.
  - apply bind_Ok in H. destruct H as (p & H & E). injection E as <-. constructor; [|constructor].
    eapply norm_bound; eauto.
  - apply bind_Ok in H. destruct H as (p & H & E). injection E as <-. cbn. eapply slice_positions_bound; eauto.
  - apply bind_Ok in H. destruct H as (p & H & E). injection E as <-. cbn. eapply mapM_norm_bound; eauto.
  - destruct (Nat.eqb_spec (length l) n); [|discriminate]. injection H as <-. cbn. subst n.
    apply (true_positions_bound l 0).
Qed.

Lemma zlist_eqb_eq l m : zlist_eqb l m = true -> l = m.
Proof.
  revert m. induction l as [|x l IH]; intros [|y m]; cbn; try discriminate; [reflexivity|].
  rewrite andb_true_iff, Z.eqb_eq. intros [-> H]. f_equal. auto.
Qed.
Lemma mapM_norm_range n : forall m k, k + m <= n ->
  mapM (norm n) (map Z.of_nat (seq k m)) = Ok (seq k m).
Proof.
  induction m as [|m IH]; intros k H; [reflexivity|].
  cbn [seq map mapM]. unfold norm at 1. rewrite py_pos_nonneg by lia. cbn [bind].
  rewrite Nat2Z.id, IH by lia. reflexivity.
Qed.

Lemma slice_eqb_eq a b : slice_eqb a b = true -> a = b.
Proof.
  destruct a as [a1 a2 a3], b as [b1 b2 b3]. unfold slice_eqb. cbn. rewrite !andb_true_iff.
  assert (forall x y : option Z, (match x, y with Some u, Some v => (u =? v)%Z | None, None => true | _, _ => false end) = true -> x = y) as H.
  { intros [u|] [v|]; try discriminate; auto. rewrite Z.eqb_eq. congruence. }
  intros [[H1 H2] H3]. f_equal; auto.
Qed.

Lemma nonchanging_positions n i r : resolve n i = Ok r -> nonchanging1 i (Some n) = true ->
  positions r = seq 0 n /\ is_num i = false.
Proof.
  destruct i; cbn [nonchanging1]; intros H Hn; try discriminate.
  - split; [|reflexivity]. cbn in H. apply bind_Ok in H. destruct H as (ps & H & E). injection E as <-. cbn.
    rewrite !orb_true_iff in Hn. pose proof (slice_all_positions n) as Hall.
    destruct Hn as [[Hn|Hn]|Hn]; apply slice_eqb_eq in Hn; subst s.
    + congruence.
    + assert (slice_positions n {| start := Some 0%Z; stop := None; step := None |} = slice_positions n slice_all) as E.
      { unfold slice_positions. cbn. do 3 f_equal. unfold range_list. cbn. rewrite Z.max_r, Z.min_l by lia. reflexivity. }
      congruence.
    + assert (slice_positions n {| start := None; stop := None; step := Some 1%Z |} = slice_positions n slice_all) as E by reflexivity.
      congruence.
  - split; [|reflexivity]. apply zlist_eqb_eq in Hn. subst l. cbn in H.
    rewrite mapM_norm_range in H by lia. cbn in H. now injection H as <-.
  - split; [|reflexivity]. cbn in H. destruct (Nat.eqb_spec (length l) n); [|discriminate]. injection H as <-.
    cbn. rewrite true_positions_all by assumption. now subst n.
Qed.

Lemma mapM_py_get_pick {A} (l : list A) z : forall ps, mapM (norm (length l)) z = Ok ps ->
  mapM (py_get l) z = Ok (pick l ps).
Proof.
  induction z as [|x z IH]; intros ps H; cbn in H.
  - now injection H as <-.
  - apply bind_Ok in H. destruct H as (p & H1 & H). apply bind_Ok in H. destruct H as (ps' & H2 & E).
    injection E as <-. cbn [mapM]. rewrite (IH _ H2).
    unfold norm in H1. unfold py_get at 1. destruct (py_pos (length l) x) as [p'|] eqn:Ep; [|discriminate].
    injection H1 as ->. apply py_pos_bound in Ep.
    unfold pick at 2. cbn [flat_map]. destruct (nth_error l p) eqn:En; [|apply nth_error_None in En; lia].
    reflexivity.
Qed.

Lemma select_ok {Arg} (args : list Arg) i r : resolve (length args) i = Ok r -> i <> New ->
  (if nonchanging1 i (Some (length args)) then Ok args else select_args args i) = Ok (pick args (positions r)).
Proof.
  intros H Hnew. destruct (nonchanging1 i (Some (length args))) eqn:En.
  - destruct (nonchanging_positions _ _ _ H En) as [-> _]. now rewrite pick_seq.
  - clear En. destruct i; try congruence; cbn in H; try discriminate.
    + apply bind_Ok in H. destruct H as (p & H & E). injection E as <-. cbn.
      unfold norm in H. unfold py_get. destruct (py_pos (length args) z) as [p'|] eqn:Ep; [|discriminate].
      injection H as ->. apply py_pos_bound in Ep.
      destruct (nth_error args p) eqn:En; [reflexivity|apply nth_error_None in En; lia].
    + apply bind_Ok in H. destruct H as (p & H & E). injection E as <-. cbn. rewrite H. reflexivity.
    + apply bind_Ok in H. destruct H as (p & H & E). injection E as <-. cbn. unfold listadvanced_int.
      now apply mapM_py_get_pick.
    + destruct (Nat.eqb_spec (length l) (length args)); [|discriminate]. injection H as <-. cbn.
      destruct l as [|b l]; [reflexivity|]. cbn [listadvanced]. unfold listadvanced_bool.
      now rewrite compress_pick.
Qed.

(* ---- lists: lengths ---- *)
Lemma selected_len n i r m : resolve n i = Ok r -> selected i = Some m ->
  list_len i = m /\ exists ps, r = RAdv ps /\ length ps = m.
Proof.
  destruct i; cbn; intros H Hs; try discriminate; injection Hs as <-.
  - apply bind_Ok in H. destruct H as (ps & H & E). injection E as <-. split; [reflexivity|].
    exists ps. split; [reflexivity|]. apply mapM_Ok_Forall2 in H. apply Forall2_len in H. auto.
  - destruct (Nat.eqb _ _); [|discriminate]. injection H as <-. split; [reflexivity|].
    eexists. split; [reflexivity|]. apply true_positions_length.
Qed.
Lemma not_selected_len i : selected i = None -> list_len i = 0.
Proof. destruct i; cbn; congruence. Qed.
Lemma not_selected_adv n i r : resolve n i = Ok r -> selected i = None -> rkind r <> KA.
Proof. intros H Hs. apply resolve_kind in H. destruct i, r; cbn in *; congruence. Qed.

(* a common length L of all lists *)
Definition uni (L : nat) (l : list ind) : Prop := forall i m, In i l -> selected i = Some m -> m = L.

Lemma uni_adv L idx : forall s rs, resolve_all s idx = Ok rs -> uni L idx -> Forall (eq L) (adv_lens rs).
Proof.
  unfold adv_lens. induction idx as [|i idx IH]; intros s rs H Hu.
  - destruct s; [|discriminate]. injection H as <-. constructor.
  - assert (uni L idx) as Hu' by (intros j m Hj; apply Hu; now right).
    apply resolve_all_cons in H. destruct H as [[-> (rs' & H & ->)]|(Hi & n & s' & r & rs' & -> & H1 & H2 & ->)].
    + cbn. eauto.
    + cbn. apply Forall_app. split; [|eauto].
      destruct (selected i) as [m|] eqn:Es.
      * destruct (selected_len _ _ _ _ H1 Es) as (_ & ps & -> & Hm). constructor; [|constructor].
        rewrite Hm. symmetry. apply (Hu i); [now left|assumption].
      * pose proof (not_selected_adv _ _ _ H1 Es). destruct r; now constructor || now destruct H.
Qed.

Lemma lengthadvanced_uni L idx s rs : resolve_all s idx = Ok rs -> uni L idx -> existsb is_new idx = false ->
  lengthadvanced idx (Some s) = Ok (if has_adv rs then L else 0).
Proof.
  intros H Hu Hn. unfold lengthadvanced.
  assert (filter (fun i => negb (is_new i)) idx = idx) as ->.
  { apply filter_id. intros i Hi. destruct (is_new i) eqn:E; [|reflexivity].
    assert (existsb is_new idx = true) by (apply existsb_exists; eauto). congruence. }
  set (tmp := map _ _).
  assert ((Forall (fun n => n = 0 \/ n = L) tmp /\ (has_adv rs = true -> In L tmp)) /\ (has_adv rs = false -> Forall (eq 0) tmp)) as [[H1 H2] H3].
  { subst tmp. revert s rs H. induction idx as [|i idx IH]; intros s rs H.
    - destruct s; [|discriminate]. injection H as <-. cbn. repeat split; constructor || discriminate.
    - assert (uni L idx) as Hu' by (intros j m Hj; apply Hu; now right).
      cbn in Hn. apply orb_false_iff in Hn. destruct Hn as [Hn1 Hn2].
      apply resolve_all_cons in H. destruct H as [[-> _]|(Hi & n & s' & r & rs' & -> & H1 & H2 & ->)]; [discriminate|].
      destruct (IH Hu' Hn2 s' rs' H2) as [[IH1 IH2] IH3].
      cbn [combine map fst]. unfold has_adv in *. cbn [existsb].
      destruct (selected i) as [m|] eqn:Es.
      + destruct (selected_len _ _ _ _ H1 Es) as (-> & ps & -> & Hm).
        rewrite (Hu i m) by (now left || assumption). cbn. repeat split; auto.
        discriminate.
      + rewrite (not_selected_len _ Es). pose proof (not_selected_adv _ _ _ H1 Es) as Hk.
        assert (is_radv r = false) as -> by (destruct r; try reflexivity; now destruct Hk).
        cbn [orb]. repeat split; auto. intros Ha. right. auto. }
  destruct (has_adv rs).
  - specialize (H2 eq_refl).
    destruct L as [|L].
    + assert (filter (fun n => negb (Nat.eqb n 0)) tmp = []) as ->; [|reflexivity].
      clear -H1. induction H1 as [|n l [->| ->] _ IH]; cbn; auto.
    + assert (Forall (eq (S L)) (filter (fun n => negb (Nat.eqb n 0)) tmp)) as Hf.
      { apply Forall_forall. intros x Hx. apply filter_In in Hx. destruct Hx as [Hx Hb].
        rewrite Forall_forall in H1. destruct (H1 x Hx) as [->| ->]; [discriminate|reflexivity]. }
      assert (In (S L) (filter (fun n => negb (Nat.eqb n 0)) tmp)) as Hin by (apply filter_In; auto).
      destruct (filter _ tmp) as [|n l]; [destruct Hin|].
      assert (n = S L) as -> by (inversion Hf; auto).
      assert (forallb (Nat.eqb (S L)) l = true) as ->; [|reflexivity].
      apply forallb_forall. intros x Hx. inversion Hf as [|? ? _ Hf']. rewrite Forall_forall in Hf'.
      apply Nat.eqb_eq. auto.
  - specialize (H3 eq_refl).
    assert (filter (fun n => negb (Nat.eqb n 0)) tmp = []) as ->; [|reflexivity].
    clear -H3. induction H3 as [|n l <- _ IH]; cbn; auto.
Qed.

(* ---- decomposing the lists of the other dimensions ---- *)
Lemma decompose_resolve L j idx : forall s rs, j < L -> resolve_all s idx = Ok rs -> uni L idx ->
  (forall b, ~ In (Bools b) idx) ->
  exists idx_j, mapM (decompose_entry j) idx = Ok idx_j /\ resolve_all s idx_j = Ok (map (dec1 j) rs).
Proof.
  induction idx as [|i idx IH]; intros s rs Hj H Hu Hb.
  - destruct s; [|discriminate]. injection H as <-. exists []. auto.
  - assert (uni L idx) as Hu' by (intros k m Hk; apply Hu; now right).
    assert (forall b, ~ In (Bools b) idx) as Hb' by (intros b Hi; apply (Hb b); now right).
    apply resolve_all_cons in H. destruct H as [[-> (rs' & H & ->)]|(Hi & n & s' & r & rs' & -> & H1 & H2 & ->)].
    + destruct (IH s rs' Hj H Hu' Hb') as (idx_j & E1 & E2). exists (New :: idx_j).
      cbn. rewrite E1, E2. auto.
    + destruct (IH s' rs' Hj H2 Hu' Hb') as (idx_j & E1 & E2).
      assert (exists i', decompose_entry j i = Ok i' /\ i' <> New /\ resolve n i' = Ok (dec1 j r)) as (i' & Ei & Hi' & Er).
      { destruct i; try congruence; cbn in H1; try discriminate.
        - apply bind_Ok in H1. destruct H1 as (p & H1 & E). injection E as <-. eexists. split; [reflexivity|].
          split; [discriminate|]. cbn. now rewrite H1.
        - apply bind_Ok in H1. destruct H1 as (p & H1 & E). injection E as <-. eexists. split; [reflexivity|].
          split; [discriminate|]. cbn. now rewrite H1.
        - apply bind_Ok in H1. destruct H1 as (ps & H1 & E). injection E as <-.
          assert (length l = L) as HL by (apply (Hu (Ints l)); [now left|reflexivity]).
          cbn. destruct (nth_error l j) as [z|] eqn:Ez; [|apply nth_error_None in Ez; lia].
          exists (Num z). split; [reflexivity|]. split; [discriminate|]. cbn.
          apply mapM_Ok_Forall2 in H1.
          assert (exists p, nth_error ps j = Some p /\ norm n z = Ok p) as (p & Hp & Hz).
          { clear -H1 Ez. revert j Ez. induction H1 as [|a b l l' Hab H IH]; intros [|j] E; try discriminate.
            - injection E as <-. exists b. auto.
            - apply IH. exact E. }
          rewrite Hz. cbn. now rewrite (nth_error_nth _ _ 0 Hp).
        - exfalso. apply (Hb l). now left. }
      exists (i' :: idx_j). split; [cbn; now rewrite Ei, E1|].
      cbn [map]. apply resolve_all_cons_ok; assumption.
Qed.

Lemma np_get_part {Arg V} (gen : Arg -> arr V) a idx s rs so :
  shp (gen a) = s -> resolve_all s idx = Ok rs -> out_shape rs = Ok so ->
  np_get (gen a) idx = Ok (part gen rs so a).
Proof. intros <- H1 H2. unfold np_get. rewrite H1. cbn. rewrite H2. reflexivity. Qed.

Lemma mapM_map {A B C} (f : B -> result C) (g : A -> B) l : mapM f (map g l) = mapM (fun a => f (g a)) l.
Proof. induction l as [|a l IH]; cbn; [reflexivity|]. now rewrite IH. Qed.
Lemma mapM_In_ok {A B} (f : A -> result B) (g : A -> B) l : (forall a, In a l -> f a = Ok (g a)) ->
  mapM f l = Ok (map g l).
Proof.
  induction l as [|a l IH]; intros H; [reflexivity|]. cbn. rewrite (H a) by now left. cbn.
  rewrite IH; [reflexivity|]. intros b Hb. apply H. now right.
Qed.

(* lists of the decomposed indices, in general *)
Lemma decompose_all L idx s rs : resolve_all s idx = Ok rs -> uni L idx -> (forall b, ~ In (Bools b) idx) ->
  exists lst, decompose_listindexing idx L = Ok lst /\ length lst = L /\
    forall j i, nth_error lst j = Some i -> resolve_all s i = Ok (map (dec1 j) rs).
Proof.
  intros H Hu Hb. unfold decompose_listindexing.
  assert (forall m k, k + m <= L -> exists lst, mapM (fun j => mapM (decompose_entry j) idx) (seq k m) = Ok lst /\
            length lst = m /\ forall j i, nth_error lst j = Some i -> resolve_all s i = Ok (map (dec1 (k + j)) rs)) as Hgen.
  { induction m as [|m IH]; intros k Hk.
    - exists []. split; [reflexivity|]. split; [reflexivity|]. intros [|j] i Hi; discriminate.
    - destruct (decompose_resolve L k idx s rs ltac:(lia) H Hu Hb) as (ik & E1 & E2).
      destruct (IH (S k) ltac:(lia)) as (lst & E3 & E4 & E5).
      exists (ik :: lst). split; [cbn [seq mapM]; rewrite E1; cbn [bind]; now rewrite E3|].
      split; [cbn; lia|]. intros [|j] i Hi; cbn in Hi.
      + injection Hi as <-. now rewrite Nat.add_0_r.
      + replace (k + S j) with (S k + j) by lia. eauto. }
  destruct (Hgen L 0 ltac:(lia)) as (lst & E1 & E2 & E3). exists lst. auto.
Qed.

Lemma Forall2_insert {A B} (R : A -> B -> Prop) p x y l l' : R x y -> Forall2 R l l' ->
  Forall2 R (insert_at p x l) (insert_at p y l').
Proof.
  intros Hxy H. revert p. induction H as [|a b l l' Hab H IH]; intros p.
  - destruct p; constructor; auto; constructor.
  - destruct p; [rewrite !insert_0; auto|]. rewrite !insert_cons. auto.
Qed.
Lemma Forall2_mapM {A B} (f : A -> result B) l bs : Forall2 (fun a b => f a = Ok b) l bs -> mapM f l = Ok bs.
Proof. induction 1 as [|a b l bs H _ IH]; cbn; [reflexivity|]. now rewrite H, IH. Qed.

Lemma no_ell idx : forall s rs, resolve_all s idx = Ok rs -> existsb is_ell idx = false.
Proof.
  induction idx as [|i idx IH]; intros s rs H; [reflexivity|].
  apply resolve_all_cons in H. destruct H as [[-> (rs' & H & ->)]|(Hi & n & s' & r & rs' & -> & H1 & H2 & ->)].
  - cbn. eauto.
  - cbn. rewrite (IH _ _ H2), orb_false_r. destruct i; try reflexivity. discriminate.
Qed.

Lemma count_nonnew idx : count (fun i => negb (is_new i)) idx = nnew (map kind_of idx).
Proof. unfold count, nnew. induction idx as [|[] idx IH]; cbn; auto. Qed.

Lemma expand_full idx s rs : resolve_all s idx = Ok rs -> expand (Tup idx) (length s) = Ok (Tup idx).
Proof.
  intros H. unfold expand. rewrite count_nonnew, <- (resolve_all_length _ _ _ H).
  rewrite Nat.ltb_irrefl, (no_ell _ _ _ H), Nat.eqb_refl. reflexivity.
Qed.

Lemma Forall_seq_ge k m : 1 <= k -> Forall (fun n => 1 <= n) (seq k m).
Proof. intros H. apply Forall_forall. intros x Hx. apply in_seq in Hx. lia. Qed.

Lemma shape_after_ok L idx s rs so ndim : resolve_all s idx = Ok rs -> out_shape rs = Ok so -> uni L idx ->
  shape_afterindexing (Some s) (Tup idx) ndim = Ok so.
Proof.
  intros H Hso Hu. unfold shape_afterindexing. rewrite (expand_full _ _ _ H). cbn [bind].
  unfold axesorder.
  change (map probe_order idx) with (map (probe_gen []) idx).
  rewrite (probe_shape [] []); [|reflexivity| |apply Forall_seq_ge; lia].
  2:{ rewrite seq_length. eapply resolve_all_length; eauto. }
  cbn [bind length]. rewrite mapM_map. apply Forall2_mapM.
  set (nonew_i := filter (fun i => negb (is_new i)) idx).
  set (h := fun n => _).
  assert (Forall2 h (klens (seq 2 (length s)) (map kind_of idx)) (kept_lens rs)) as Hk.
  { assert (forall idx pre s pres rs, resolve_all s idx = Ok rs -> length pre = length pres ->
              nonew_i = pre ++ filter (fun i => negb (is_new i)) idx ->
              forall sfull, sfull = pres ++ s ->
              Forall2 (fun n len => (match (match n with 0 => FromLists | 1 => FromNew | S (S k) => FromAxis k end) with
                                     | FromLists => lengthadvanced nonew_i (Some sfull)
                                     | FromNew => Ok 1
                                     | FromAxis k => match nth_error nonew_i k, nth_error sfull k with
                                        | Some (Sl sl), Some n => let! ps := slice_positions n sl in Ok (length ps)
                                        | Some _, Some n => Ok n
                                        | _, _ => Err IndexError end end) = Ok len)
                (klens (seq (2 + length pre) (length s)) (map kind_of idx)) (kept_lens rs)) as Hgen.
    2:{ specialize (Hgen idx [] s [] rs H eq_refl eq_refl s eq_refl).
        eapply Forall2_impl; [|exact Hgen]. intros n len Hh. unfold h. exact Hh. }
    clearbody nonew_i. clear. induction idx as [|i idx IH]; intros pre s pres rs H Hpre Hn sfull Hs.
    - destruct s; [|discriminate]. injection H as <-. constructor.
    - apply resolve_all_cons in H. destruct H as [[-> (rs' & H & ->)]|(Hi & n & s' & r & rs' & -> & H1 & H2 & ->)].
      + cbn [map kind_of klens kept_lens flat_map app]. constructor; [reflexivity|].
        apply (IH pre s pres rs'); auto.
      + assert (is_new i = false) as Ei by (destruct i; reflexivity || congruence).
        cbn [filter] in Hn. rewrite Ei in Hn. cbn [negb] in Hn.
        specialize (IH (pre ++ [i]) s' (pres ++ [n]) rs' H2).
        rewrite !app_length, <- !app_assoc in IH. cbn [length app] in IH.
        specialize (IH ltac:(lia) Hn sfull Hs).
        replace (2 + (length pre + 1)) with (S (2 + length pre)) in IH by lia.
        cbn [length seq map].
        assert (forall l, nth_error (pre ++ i :: l) (length pre) = Some i) as Hn1.
        { intros l. rewrite nth_error_app2, Nat.sub_diag by lia. reflexivity. }
        assert (nth_error sfull (length pre) = Some n) as Hn2.
        { rewrite Hs, nth_error_app2 by lia. rewrite Hpre, Nat.sub_diag. reflexivity. }
        pose proof (resolve_kind _ _ _ H1) as Hk.
        destruct i; try congruence; try discriminate; cbn in H1; try discriminate;
          destruct r; try discriminate; cbn [kind_of klens hd tl kept_lens flat_map app]; try exact IH.
        constructor; [|exact IH]. cbn [plus]. rewrite Hn, Hn1, Hn2.
        apply bind_Ok in H1. destruct H1 as (ps' & H1 & E). injection E as <-. rewrite H1. reflexivity. }
  unfold kout. pose proof (resolve_all_kind _ _ _ H) as Hkind.
  unfold out_shape in Hso. rewrite has_adv_kind, Hkind, adv_pos_kind, Hkind in Hso.
  destruct (kadv (map kind_of idx)) eqn:Ea.
  - rewrite (broadcast_const L) in Hso.
    + cbn in Hso. injection Hso as <-. apply Forall2_insert; [|exact Hk].
      unfold h.
      assert (existsb is_new nonew_i = false) as En.
      { destruct (existsb is_new nonew_i) eqn:E; [|reflexivity]. apply existsb_exists in E. destruct E as (x & Hx & Hb).
        apply filter_In in Hx. destruct Hx as [_ Hx]. rewrite Hb in Hx. discriminate. }
      rewrite (lengthadvanced_uni L _ _ (nonew rs)).
      * rewrite has_adv_kind, rkinds_nonew, kadv_nonew, Hkind, Ea. reflexivity.
      * now apply resolve_all_nonew.
      * intros i m Hi. apply Hu. apply filter_In in Hi. apply Hi.
      * assumption.
    + apply adv_lens_nonempty. now rewrite has_adv_kind, Hkind.
    + eapply uni_adv; eauto.
  - injection Hso as <-. exact Hk.
Qed.

Lemma existsb_new_dims idx : existsb is_new (dims idx) = false.
Proof.
  destruct (existsb is_new (dims idx)) eqn:E; [|reflexivity]. apply existsb_exists in E. destruct E as (x & Hx & Hb).
  apply filter_In in Hx. destruct Hx as [_ Hx]. rewrite Hb in Hx. discriminate.
Qed.

Lemma out_shape_insert_other r rs ax so : rkind r <> KA -> out_shape (insert_at ax r rs) = Ok so ->
  exists so', out_shape rs = Ok so'.
Proof.
  intros Hr H. unfold out_shape in *. rewrite has_adv_kind, map_insert_at, kadv_insert_false in H by assumption.
  rewrite adv_lens_insert_other in H by assumption. rewrite has_adv_kind.
  destruct (kadv (map rkind rs)); [|eauto]. destruct (broadcast (adv_lens rs)); [cbn; eauto|discriminate].
Qed.

Lemma num_kind i : kind_of i = KI <-> is_num i = true.
Proof. destruct i; cbn; split; congruence. Qed.

Lemma kept_nonew_incl rs : incl (kept_lens (nonew rs)) (kept_lens rs).
Proof.
  unfold kept_lens, nonew. induction rs as [|[] rs IH]; cbn; intros x Hx; auto.
  - right. auto.
  - destruct Hx as [Hx|Hx]; [now left|right; auto].
Qed.
Lemma adv_pos_le rs : has_adv rs = true -> adv_pos rs <= length (kept_lens rs).
Proof. intros H. rewrite adv_pos_kind, kept_length. apply kpos_le. now rewrite <- has_adv_kind. Qed.
Lemma zero_nonew rs so0 so : out_shape (nonew rs) = Ok so0 -> out_shape rs = Ok so -> In 0 so0 -> In 0 so.
Proof.
  intros H0 H Hz. unfold out_shape in *.
  assert (has_adv (nonew rs) = has_adv rs) as E by (now rewrite !has_adv_kind, rkinds_nonew, kadv_nonew).
  rewrite E, adv_lens_nonew in H0.
  destruct (has_adv rs) eqn:Ea.
  - apply bind_Ok in H0. destruct H0 as (L & HL & E0). injection E0 as <-.
    rewrite HL in H. cbn in H. injection H as <-.
    apply In_insert_at; [now apply adv_pos_le|].
    apply In_insert_at in Hz; [|now apply adv_pos_le].
    destruct Hz as [Hz|Hz]; [now left|right; now apply kept_nonew_incl].
  - injection H0 as <-. injection H as <-. now apply kept_nonew_incl.
Qed.
Lemma zero_slice rs so : out_shape rs = Ok so -> In (RSl []) rs -> In 0 so.
Proof.
  intros H Hi.
  assert (In 0 (kept_lens rs)) as Hk by (unfold kept_lens; apply in_flat_map; exists (RSl []); split; [assumption|now left]).
  unfold out_shape in H. destruct (has_adv rs) eqn:Ea.
  - apply bind_Ok in H. destruct H as (L & HL & E0). injection E0 as <-.
    apply In_insert_at; [now apply adv_pos_le|now right].
  - injection H as <-. assumption.
Qed.

Section Final.
Context {Arg V : Type} (gen : Arg -> arr V) (dflt : V) (args : list Arg) (S' : list nat) (ax : nat).

Lemma getitem_tuple (i : index) idx rs so L axis :
  ax <= length S' ->
  Forall (fun a => shp (gen a) = S') args ->
  positiveaxis axis (S (length S')) = Ok ax ->
  expand i (S (length S')) = Ok (Tup idx) ->
  resolve_all (insert_at ax (length args) S') idx = Ok rs ->
  out_shape rs = Ok so ->
  uni L idx -> bool_lists_ok idx ax ->
  exists ia r0 used r',
    getitem gen dflt args i (S (length S')) (Some (insert_at ax (length args) S')) axis = Ok (used, r') /\
    arr_eq r' {| shp := so; elt := out_elt (elt (full_arr gen dflt args S' ax)) rs |} /\
    nth_error (dims idx) ax = Some ia /\ resolve (length args) ia = Ok r0 /\
    Forall2 (fun p a => nth_error args p = Some a) (positions r0) used.
Proof.
  intros Hax Hgen Hpa Hexp Hr Hso Hu Hb.
  set (SS := insert_at ax (length args) S') in *.
  destruct (@extract_newaxis_ok V _ _ _ _ Hr Hso) as (ops2 & so0 & Hen & Hso0 & Hops2).
  fold (dims idx) in Hen.
  pose proof (resolve_all_nonew _ _ _ Hr) as Hr0. fold (dims idx) in Hr0.
  assert (length (dims idx) = S (length S')) as Hdl.
  { apply resolve_all_length in Hr0.
    rewrite nnew_no_new in Hr0 by (apply no_new_no_KN, existsb_new_dims).
    rewrite map_length in Hr0. rewrite <- Hr0. unfold SS. apply length_insert_at. }
  destruct (nth_error (dims idx) ax) as [ia|] eqn:Eia.
  2:{ apply nth_error_None in Eia. lia. }
  pose proof (nth_error_remove_insert _ _ _ Eia) as Esplit.
  set (idx' := remove_at ax (dims idx)) in *.
  assert (length idx' = length S') as Hl' by (unfold idx'; rewrite length_remove_at; lia).
  pose proof (existsb_new_dims idx) as Hnew. rewrite Esplit in Hnew.
  rewrite Esplit in Hr0. unfold SS in Hr0.
  destruct (resolve_all_split ax (length args) ia idx' S' (nonew rs) Hax Hnew Hl' Hr0)
    as (r0 & rs' & Ers & Hr1 & Hr2 & Hl2).
  destruct (existsb_new_remove _ _ _ Hnew) as [Hnew' Hia].
  assert (no_new (map kind_of idx')) as Hnn' by now apply no_new_no_KN.
  pose proof (resolve_all_kind _ _ _ Hr2) as Hk2.
  assert (no_new (map rkind rs')) as Hnn by now rewrite Hk2.
  assert (ia <> New) as Hia' by (intros ->; discriminate).
  assert (uni L (dims idx)) as Hud by (intros j m Hj; apply Hu; apply filter_In in Hj; apply Hj).
  assert (uni L idx') as Hu'.
  { intros j m Hj. apply Hud. unfold idx', remove_at in Hj. apply in_app_iff in Hj.
    rewrite <- (firstn_skipn (S ax) (dims idx)). apply in_app_iff.
    destruct Hj as [Hj|Hj]; [left|now right].
    rewrite <- (firstn_skipn ax (firstn (S ax) (dims idx))). apply in_app_iff. left.
    rewrite firstn_firstn. now replace (Init.Nat.min ax (S ax)) with ax by lia. }
  pose proof (resolve_bound _ _ _ Hr1) as Hbound.
  pose proof (pick_Forall2 args (positions r0) Hbound) as Hpick.
  exists ia, r0.
  cut (exists r', getitem gen dflt args i (S (length S')) (Some SS) axis = Ok (pick args (positions r0), r') /\
         arr_eq r' {| shp := so; elt := out_elt (elt (full_arr gen dflt args S' ax)) rs |}).
  { intros (r' & H1 & H2). exists (pick args (positions r0)), r'. auto. }
  unfold getitem. rewrite Hexp. cbn [bind].
  rewrite Hen. cbn [bind]. rewrite Esplit. unfold SS.
  rewrite (extract_axis_ok idx' ia ax axis (length args) S') by (assumption || lia || (rewrite Hl'; assumption)).
  cbn zeta. rewrite <- Hk2.
  pose proof (select_ok args ia r0 Hr1 Hia') as Hsel.
  pose proof (resolve_kind _ _ _ Hr1) as Hk1.
  rewrite Ers in Hso0.
  (* the array for an empty selection *)
  assert (forall f, In 0 so ->
    exists r', (let! s := shape_afterindexing (Some (insert_at ax (length args) S')) (Tup idx) (S (length S')) in
                Ok {| shp := s; elt := fun _ : list nat => dflt |}) = Ok r' /\ arr_eq r' {| shp := so; elt := f |}) as Hempty.
  { intros f H0. rewrite (shape_after_ok L _ _ _ _ _ Hr Hso Hu). cbn [bind]. eexists. split; [reflexivity|].
    split; [reflexivity|]. cbn [shp]. intros o Ho. exfalso.
    apply In_nth_error in H0. destruct H0 as (k & Hk).
    apply inside_nth in Ho. destruct Ho as [_ Ho]. specialize (Ho k).
    assert (k < length so) by (apply nth_error_Some; congruence).
    rewrite (nth_error_nth _ _ 0 Hk) in Ho. lia. }
  (* zero-length dimensions before and after adding new axes *)
  assert (In 0 so0 -> In 0 so) as Hzero by (apply (zero_nonew rs); [rewrite Ers|]; assumption).
  specialize (Hops2 (elt (full_arr gen dflt args S' ax))). rewrite Ers in Hops2.
  destruct (kind_of ia) eqn:Ek.
  - destruct ia; discriminate.
  - (* integer *)
    destruct r0 as [|?|p0|?]; try discriminate.
    assert (is_list ia = false) as El by (destruct ia; discriminate || reflexivity).
    assert (is_num ia = true) as Enum by (destruct ia; discriminate || reflexivity).
    assert (nonchanging1 ia (Some (length args)) = false) as Enc by (destruct ia; discriminate || reflexivity).
    rewrite Enc in Hsel.
    destruct (out_shape_insert_other (RInt p0) rs' ax so0 ltac:(discriminate) Hso0) as (so' & Hso').
    cbn [positions] in *. inversion Hpick as [|? a ? ? Ha _ E1 E2]. subst.
    assert (pick args [p0] = [a]) as Hpa0 by (unfold pick; cbn; now rewrite Ha).
    rewrite Hpa0 in *.
    assert (shp (gen a) = S') as Hga by (rewrite Forall_forall in Hgen; apply Hgen; eapply nth_error_In; eauto).
    assert (np_get (gen a) idx' = Ok (part gen rs' so' a)) as Hget by (eapply np_get_part; eauto).
    destruct (core_int gen dflt args S' ax Hax rs' Hnn Hl2 p0 a Ha so0 so' Hso0 Hso') as [Hcore Hlt].
    destruct (kadv (map rkind rs')) eqn:Ea.
    + destruct (@ops_move V (S (nkept (map rkind rs'))) (kpos (map rkind rs')) (kpos (insert_at ax KI (map rkind rs'))))
        as (ops1 & Hops & _ & Hap).
      rewrite Hops. cbn [bind]. rewrite Enc, El, Enum, Hsel. cbn [bind mapM negb andb].
      rewrite Hget. cbn [bind].
      rewrite apply_ops_app.
      assert (length so' = S (nkept (map rkind rs'))) as Hsl.
      { unfold out_shape in Hso'. rewrite has_adv_kind, Ea in Hso'. apply bind_Ok in Hso'. destruct Hso' as (L' & _ & E).
        injection E as <-. rewrite length_insert_at, kept_length. reflexivity. }
      destruct (Hlt eq_refl) as [Hq Hp]. rewrite Hsl in *.
      destruct (Hap (part gen rs' so' a) _ Hq Hp Hsl (arr_eq_refl _)) as (d & -> & Hd). cbn [bind].
      destruct (Hops2 d (arr_eq_trans _ _ _ Hd Hcore)) as (c & -> & Hc).
      cbn [bind]. eauto.
    + cbn [bind]. rewrite Enc, El, Enum, Hsel. cbn [bind mapM negb andb].
      rewrite Hget. cbn [bind app].
      destruct (Hops2 (part gen rs' so' a) Hcore) as (c & -> & Hc).
      cbn [bind]. eauto.
  - (* slice *)
    destruct r0 as [|ps|?|?]; try discriminate.
    assert (is_list ia = false) as El by (destruct ia; discriminate || reflexivity).
    assert (is_num ia = false) as Enum by (destruct ia; discriminate || reflexivity).
    destruct (out_shape_insert_other (RSl ps) rs' ax so0 ltac:(discriminate) Hso0) as (so' & Hso').
    cbn [positions] in *.
    assert (mapM (fun a => np_get (gen a) idx') (pick args ps) = Ok (map (part gen rs' so') (pick args ps))) as Hdata.
    { apply mapM_In_ok. intros a Ha. apply (np_get_part gen a idx' S' rs' so'); [|assumption..].
      rewrite Forall_forall in Hgen. apply Hgen. unfold pick in Ha. apply in_flat_map in Ha.
      destruct Ha as (p & _ & Ha). destruct (nth_error args p) eqn:E; [|destruct Ha].
      destruct Ha as [<-|[]]. eapply nth_error_In; eauto. }
    assert (forall ops1, (forall st, np_stack (map (part gen rs' so') (pick args ps)) (ex_axo ax (map rkind rs')) = Ok st ->
        exists d, apply_ops ops1 st = Ok d /\ arr_eq d {| shp := so0; elt := out_elt (elt (full_arr gen dflt args S' ax)) (insert_at ax (RSl ps) rs') |}) ->
      ps <> [] ->
      exists r', match map (part gen rs' so') (pick args ps) with
        | [] => let! s := shape_afterindexing (Some (insert_at ax (length args) S')) (Tup idx) (S (length S')) in
                Ok {| shp := s; elt := fun _ : list nat => dflt |}
        | [d] => if negb (nonchanging1 ia (Some (length args))) && is_num ia then apply_ops (ops1 ++ ops2) d
                 else let! b := np_stack (map (part gen rs' so') (pick args ps)) (ex_axo ax (map rkind rs')) in apply_ops (ops1 ++ ops2) b
        | _ => let! b := np_stack (map (part gen rs' so') (pick args ps)) (ex_axo ax (map rkind rs')) in apply_ops (ops1 ++ ops2) b
        end = Ok r' /\ arr_eq r' {| shp := so; elt := out_elt (elt (full_arr gen dflt args S' ax)) rs |}) as Hfin.
    { intros ops1 Hops1 Hne. rewrite Enum, andb_false_r.
      destruct (core_slice gen dflt args S' ax Hax rs' Hnn Hl2 ps Hbound Hne so0 so' Hso0 Hso') as (st & Hst & _).
      fold (ex_r ax (map rkind rs')) in Hst.
      fold (ex_axo ax (map rkind rs')) in Hst.
      destruct (Hops1 st Hst) as (d & Hd1 & Hd2).
      destruct (Hops2 d Hd2) as (c & Hc1 & Hc2).
      assert ((let! b := np_stack (map (part gen rs' so') (pick args ps)) (ex_axo ax (map rkind rs')) in apply_ops (ops1 ++ ops2) b) = Ok c) as Hall.
      { rewrite Hst. cbn [bind]. rewrite apply_ops_app, Hd1. exact Hc1. }
      exists c. split; [|exact Hc2].
      destruct (map (part gen rs' so') (pick args ps)) as [|d0 [|d1 dl]] eqn:Em; [|exact Hall|exact Hall].
      exfalso. apply map_eq_nil in Em. rewrite Em in Hpick. inversion Hpick. congruence. }
    assert (ps = [] -> exists r', (let! s := shape_afterindexing (Some (insert_at ax (length args) S')) (Tup idx) (S (length S')) in
                Ok {| shp := s; elt := fun _ : list nat => dflt |}) = Ok r' /\
                arr_eq r' {| shp := so; elt := out_elt (elt (full_arr gen dflt args S' ax)) rs |}) as Hemp.
    { intros ->. apply Hempty, Hzero. eapply zero_slice; [exact Hso0|]. apply In_insert_at; [lia|now left]. }
    clear Hempty.
    destruct (kadv (map rkind rs')) eqn:Ea.
    + destruct (@ops_move V (S (S (nkept (map rkind rs')))) (ex_q ax (map rkind rs')) (kpos (insert_at ax KS (map rkind rs'))))
        as (ops1 & Hops & _ & Hap).
      rewrite Hops. cbn [bind]. rewrite El, Hsel. cbn [bind]. rewrite Hdata. cbn [bind].
      destruct ps as [|p0 ps].
      { cbn [pick flat_map map]. destruct (Hemp eq_refl) as (r' & -> & Hr'). cbn [bind]. eauto. }
      destruct (Hfin ops1) as (r' & Hr1' & Hr2'); [|discriminate|rewrite Hr1'; cbn [bind]; eauto].
      intros st Hst.
      destruct (core_slice gen dflt args S' ax Hax rs' Hnn Hl2 (p0 :: ps) Hbound ltac:(discriminate) so0 so' Hso0 Hso') as (st' & Hst' & Hcore & Hlt).
      rewrite Ea in Hst', Hcore, Hlt.
      assert (st' = st) as ->.
      { unfold ex_axo, ex_r in Hst. rewrite Ea in Hst. congruence. }
      assert (length (shp st) = S (S (nkept (map rkind rs')))) as Hsl.
      { destruct Hcore as [Hc _]. cbn [mv shp] in Hc. apply (f_equal (@length nat)) in Hc.
        destruct (Hlt eq_refl) as [Hq Hp].
        rewrite length_insert_at, length_remove_at in Hc by exact Hq.
        assert (length so0 = S (S (nkept (map rkind rs')))) as Hs0.
        { unfold out_shape in Hso0. rewrite has_adv_kind, map_insert_at, kadv_insert_false, Ea in Hso0 by discriminate.
          apply bind_Ok in Hso0. destruct Hso0 as (L' & _ & E). injection E as <-.
          rewrite length_insert_at, kept_length, map_insert_at, nkept_insert. reflexivity. }
        lia. }
      destruct (Hlt eq_refl) as [Hq Hp]. rewrite Hsl in Hq, Hp.
      assert (ex_q ax (map rkind rs') < S (S (nkept (map rkind rs')))) as Hq'.
      { unfold ex_q, ex_axo, ex_r. rewrite Ea. exact Hq. }
      destruct (Hap st st Hq' Hp Hsl (arr_eq_refl _)) as (d & Hd1 & Hd2).
      exists d. split; [exact Hd1|]. apply (arr_eq_trans _ _ _ Hd2).
      unfold ex_q, ex_axo, ex_r. rewrite Ea. exact Hcore.
    + cbn [bind]. rewrite El, Hsel. cbn [bind]. rewrite Hdata. cbn [bind].
      destruct ps as [|p0 ps].
      { cbn [pick flat_map map]. destruct (Hemp eq_refl) as (r' & -> & Hr'). cbn [bind]. eauto. }
      destruct (Hfin []) as (r' & Hr1' & Hr2'); [|discriminate|rewrite Hr1'; cbn [bind]; eauto].
      intros st Hst.
      destruct (core_slice gen dflt args S' ax Hax rs' Hnn Hl2 (p0 :: ps) Hbound ltac:(discriminate) so0 so' Hso0 Hso') as (st' & Hst' & Hcore & Hlt).
      rewrite Ea in Hst', Hcore.
      assert (st' = st) as ->.
      { unfold ex_axo, ex_r in Hst. rewrite Ea in Hst. congruence. }
      exists st. split; [reflexivity|exact Hcore].
  - (* list *)
    destruct r0 as [|?|?|ps]; try discriminate.
    assert (is_list ia = true) as El by (destruct ia; discriminate || reflexivity).
    assert (is_num ia = false) as Enum by (destruct ia; discriminate || reflexivity).
    cbn [positions] in *. cbn [bind]. rewrite El, Hsel, Enum, andb_false_r. cbn [bind].
    assert (exists m, selected ia = Some m) as (m & Hm) by (destruct ia; try discriminate; cbn; eauto).
    destruct (selected_len _ _ _ _ Hr1 Hm) as (Hll & ps' & E & Hpl). injection E as <-.
    assert (m = L) as ->.
    { apply (Hud ia); [|assumption]. eapply nth_error_In; eauto. }
    rewrite Hll. rewrite (lengthadvanced_uni L _ _ _ Hr2 Hu' Hnew'). cbn [bind].
    assert (negb (Nat.eqb (if has_adv rs' then L else 0) 0) && negb (Nat.eqb (if has_adv rs' then L else 0) L) = false) as ->.
    { destruct (has_adv rs'); rewrite ?Nat.eqb_refl; cbn; [apply andb_false_r|reflexivity]. }
    assert (forall b, ~ In (Bools b) idx') as Hnb.
    { intros b Hi. apply In_nth_error in Hi. destruct Hi as (k & Hk).
      assert (selected ia <> None) as Hs by congruence.
      unfold bool_lists_ok in Hb.
      set (k' := if k <? ax then k else S k).
      assert (nth_error (dims idx) k' = Some (Bools b)) as Hk'.
      { apply nth_error_nth with (d := New) in Hk as Hkn.
        assert (k < length idx') by (apply nth_error_Some; congruence).
        unfold idx' in Hkn. rewrite nth_remove_at in Hkn.
        unfold k'. destruct (Nat.ltb_spec k ax); rewrite <- Hkn; apply nth_error_nth'; lia. }
      specialize (Hb ia k' b Eia Hs Hk'). unfold k' in Hb. destruct (Nat.ltb_spec k ax); lia. }
    destruct (decompose_all L idx' S' rs' Hr2 Hu' Hnb) as (lst & Hdec & Hlst & Hres).
    rewrite Hdec. cbn [bind].
    pose proof (Forall2_len _ _ _ Hpick) as Hpl2.
    assert (map fst (combine (pick args ps) lst) = pick args ps) as Hfst.
    { assert (length (pick args ps) = length lst) as Heq by lia. revert Heq. clear.
      generalize (pick args ps). induction lst as [|x l IH]; intros [|a l'] H; try discriminate; [reflexivity|].
      cbn. f_equal. apply IH. cbn in H. lia. }
    assert (mapM (fun p => np_get (gen (fst p)) (snd p)) (combine (pick args ps) lst)
            = Ok (map (fun ka => part gen (map (dec1 (fst ka)) rs') (kept_lens rs') (snd ka)) (combine (seq 0 (length ps)) (pick args ps)))) as Hdata.
    { assert (Forall (fun a => shp (gen a) = S') (pick args ps)) as Hgp.
      { apply Forall_forall. intros a Ha. rewrite Forall_forall in Hgen. apply Hgen. unfold pick in Ha. apply in_flat_map in Ha.
        destruct Ha as (p & _ & Ha). destruct (nth_error args p) eqn:E; [|destruct Ha].
        destruct Ha as [<-|[]]. eapply nth_error_In; eauto. }
      assert (forall l lst k, Forall (fun a => shp (gen a) = S') l -> length l = length lst ->
        (forall j i, nth_error lst j = Some i -> resolve_all S' i = Ok (map (dec1 (k + j)) rs')) ->
        mapM (fun p => np_get (gen (fst p)) (snd p)) (combine l lst)
          = Ok (map (fun ka => part gen (map (dec1 (fst ka)) rs') (kept_lens rs') (snd ka)) (combine (seq k (length l)) l))) as Hg.
      { clear. induction l as [|a l IH]; intros [|x lst] k Hg Hl Hres; try discriminate; [reflexivity|].
        inversion Hg as [|? ? Hga Hgl]. subst.
        cbn [combine mapM length seq map fst snd].
        rewrite (np_get_part gen a x (shp (gen a)) (map (dec1 k) rs') (kept_lens rs')); [|reflexivity| |].
        - cbn [bind]. rewrite (IH lst (S k)); [reflexivity|assumption|cbn in Hl; lia|].
          intros j i Hj. replace (S k + j) with (k + S j) by lia. now apply Hres.
        - specialize (Hres 0 x eq_refl). now rewrite Nat.add_0_r in Hres.
        - unfold out_shape. rewrite dec_adv. now rewrite dec_kept. }
      rewrite Hpl2. apply Hg; [assumption|lia|]. exact Hres. }
    rewrite Hdata. cbn [bind]. rewrite Hfst.
    destruct ps as [|p0 ps0].
    + cbn [length seq combine map].
      assert (In 0 so0) as Hz.
      { unfold out_shape in Hso0.
        rewrite has_adv_kind, map_insert_at in Hso0. cbn [rkind] in Hso0. rewrite kadv_insert_true in Hso0.
        rewrite (broadcast_const 0) in Hso0.
        - cbn in Hso0. injection Hso0 as <-. apply In_insert_at; [|now left].
          apply adv_pos_le. rewrite has_adv_kind, map_insert_at. apply kadv_insert_true.
        - apply adv_lens_nonempty. rewrite has_adv_kind, map_insert_at. apply kadv_insert_true.
        - cbn in Hpl. subst L. rewrite <- Ers, adv_lens_nonew. eapply uni_adv; eauto. }
      destruct (Hempty (out_elt (elt (full_arr gen dflt args S' ax)) rs) (Hzero Hz)) as (r' & -> & Hr').
      cbn [bind]. eauto.
    + set (ps := p0 :: ps0) in *.
      assert (Forall (eq (length ps)) (adv_lens rs')) as Huni by (rewrite Hpl; eapply uni_adv; eauto).
      destruct (core_adv gen dflt args S' ax Hax rs' Hnn Hl2 ps Hbound ltac:(discriminate) Huni so0 Hso0) as (st & Hst & Hcore).
      destruct (Hops2 st Hcore) as (c & Hc1 & Hc2).
      cbn [app].
      assert ((let! b := np_stack (map (fun ka => part gen (map (dec1 (fst ka)) rs') (kept_lens rs') (snd ka)) (combine (seq 0 (length ps)) (pick args ps)))
                 (kpos (insert_at ax KA (map rkind rs'))) in apply_ops ops2 b) = Ok c) as Hall.
      { rewrite Hst. exact Hc1. }
      exists c. split; [|exact Hc2].
      destruct (map (fun ka => part gen (map (dec1 (fst ka)) rs') (kept_lens rs') (snd ka)) (combine (seq 0 (length ps)) (pick args ps))) as [|d0 [|d1 dl]] eqn:Em;
        [|rewrite Hall; reflexivity|rewrite Hall; reflexivity].
      exfalso. apply (f_equal (@length _)) in Em. rewrite map_length, combine_length, seq_length, <- Hpl2 in Em.
      cbn in Em. lia.
Qed.
End Final.

Lemma fill_inside idx : forall s rs, resolve_all s idx = Ok rs -> forall L rest j,
  Forall (fun n => n = L \/ n = 1) (adv_lens rs) -> (adv_lens rs <> [] -> j < L) -> inside (kept_lens rs) rest -> inside s (fill rs rest j).
Proof.
  induction idx as [|i idx IH]; intros s rs H L rest j HL Hj Hin.
  - destruct s; [|discriminate]. injection H as <-. constructor.
  - destruct (is_new i) eqn:En.
    + destruct i; try discriminate. cbn in H. apply bind_Ok in H. destruct H as (rs' & H & E). injection E as <-.
      cbn in *. inversion Hin; subst. cbn [fill tl]. eapply IH; eauto.
    + destruct s as [|n s]; [destruct i; discriminate|].
      assert (exists r rs', resolve n i = Ok r /\ resolve_all s idx = Ok rs' /\ rs = r :: rs') as (r & rs' & Hr & Hrs & ->).
      { destruct i; try discriminate; cbn [resolve_all] in H; apply bind_Ok in H; destruct H as (r & Hr & H);
          apply bind_Ok in H; destruct H as (rs' & Hrs & E); injection E as <-; eauto. }
      pose proof (resolve_bound _ _ _ Hr) as Hb.
      destruct r as [|ps|p|ps]; cbn [positions] in Hb.
      * destruct i; cbn in Hr; try discriminate; apply bind_Ok in Hr || destruct (Nat.eqb _ _);
          try discriminate; destruct Hr as (? & _ & E); discriminate.
      * change (kept_lens (RSl ps :: rs')) with (length ps :: kept_lens rs') in Hin.
        inversion Hin as [|? k ? rest' Hk Hin']. subst. cbn [fill hd tl]. constructor.
        -- rewrite Forall_forall in Hb. apply Hb, nth_In. lia.
        -- eapply IH; eauto.
      * cbn [fill]. inversion Hb. constructor; [assumption|]. eapply IH; eauto.
      * change (adv_lens (RAdv ps :: rs')) with (length ps :: adv_lens rs') in *.
        inversion HL as [|? ? HL1 HL2]; subst. cbn [fill]. constructor.
        -- unfold bnth. rewrite Forall_forall in Hb. apply Hb, nth_In.
           assert (j < L) by (apply Hj; discriminate).
           destruct (Nat.eqb_spec (length ps) 1); lia.
        -- eapply IH; eauto. intros _. apply Hj. discriminate.
Qed.

Lemma broadcast_lens ls : forall m, broadcast ls = Ok m -> ls = [] \/ Forall (fun n => n = m \/ n = 1) ls.
Proof.
  assert (forall m, broadcast ls = Ok m -> Forall (fun n => n = m \/ n = 1) ls) as H; [|intros; right; auto].
  induction ls as [|n ls IH]; intros m H; [constructor|]. cbn in H. apply bind_Ok in H. destruct H as (m' & H & E).
  specialize (IH _ H).
  destruct (Nat.eqb_spec n m') as [->|]; [injection E as <-; constructor; auto|].
  destruct (Nat.eqb_spec n 1) as [->|]; [injection E as <-; constructor; auto|].
  destruct (Nat.eqb_spec m' 1) as [->|]; [|discriminate]. injection E as <-.
  constructor; [now left|]. eapply Forall_impl; [|exact IH]. cbn. intros x [->| ->]; auto.
Qed.

Lemma no_adv_lens rs : has_adv rs = false -> adv_lens rs = [].
Proof.
  intros Ea. unfold adv_lens. unfold has_adv in Ea.
  induction rs as [|[] rs IH]; cbn in *; auto; discriminate.
Qed.

Lemma out_elt_ext {V} (f g : list nat -> V) idx s rs so :
  resolve_all s idx = Ok rs -> out_shape rs = Ok so ->
  (forall o, inside s o -> f o = g o) ->
  forall o, inside so o -> out_elt f rs o = out_elt g rs o.
Proof.
  intros Hr Hso Hfg o Ho. unfold out_elt, out_shape in *.
  destruct (has_adv rs) eqn:Ea.
  - apply bind_Ok in Hso. destruct Hso as (L & HL & E). injection E as <-.
    destruct (broadcast_lens _ _ HL) as [HL'|HL']; [now apply adv_lens_nonempty in HL'|].
    pose proof (adv_pos_le _ Ea) as Hp.
    apply Hfg. eapply fill_inside; eauto.
    + intros _. apply (inside_nth_lt _ _ (adv_pos rs)) in Ho; [|rewrite length_insert_at; lia].
      now rewrite nth_insert_same in Ho by lia.
    + apply (inside_remove (adv_pos rs)) in Ho; [|rewrite length_insert_at; lia].
      now rewrite remove_insert_at in Ho by lia.
  - injection Hso as <-. apply Hfg.
    apply (fill_inside _ _ _ Hr 0); [rewrite (no_adv_lens rs Ea); constructor| |assumption].
    now rewrite (no_adv_lens rs Ea).
Qed.

Lemma count_parts l : count (fun i => negb (is_new i)) l = given l + count is_ell l.
Proof. unfold given, count. induction l as [|[] l IH]; cbn; lia. Qed.
Lemma existsb_count l : existsb is_ell l = true <-> 1 <= count is_ell l.
Proof.
  unfold count. induction l as [|i l IH]; cbn; [split; [discriminate|lia]|].
  destruct (is_ell i); cbn; [split; [lia|reflexivity]|exact IH].
Qed.
Lemma replace_fill l f : replace_first_ell l f = np_fill_ell l f.
Proof. induction l as [|[] l IH]; cbn; congruence. Qed.
Lemma In_ell l : In Ell l <-> existsb is_ell l = true.
Proof.
  rewrite existsb_exists. split; [intros H; exists Ell; auto|].
  intros (x & Hx & E). destruct x; try discriminate. assumption.
Qed.

Lemma expand_np i ndim l : 1 <= ndim -> supported i ndim ->
  np_expand (tuple_of i) ndim = Ok l -> expand i ndim = Ok (Tup l).
Proof.
  intros Hn Hs H. unfold np_expand in H.
  destruct ((1 <? count is_ell (tuple_of i)) || (ndim <? _)) eqn:E; [discriminate|].
  apply orb_false_iff in E. destruct E as [E1 E2]. rewrite Nat.ltb_ge in E1, E2.
  injection H as <-. destruct i as [i|l]; cbn [tuple_of] in *.
  - destruct i; cbn in Hs |- *; rewrite ?Nat.sub_0_r, ?app_nil_r; try reflexivity;
      destruct ndim as [|[|n]]; try lia; reflexivity.
  - cbn [expand supported] in *. rewrite count_parts. change (count _ l) with (given l) in E2.
    fold (given l). destruct (existsb is_ell l) eqn:Ee.
    + pose proof (proj1 (existsb_count l) Ee). apply In_ell in Ee. specialize (Hs Ee).
      replace (ndim <? given l + count is_ell l) with false by (symmetry; apply Nat.ltb_ge; lia).
      rewrite replace_fill. do 4 f_equal. lia.
    + assert (count is_ell l = 0) as E0.
      { destruct (count is_ell l) eqn:Ec; [reflexivity|]. rewrite (proj2 (existsb_count l)) in Ee; [discriminate|lia]. }
      rewrite E0, Nat.add_0_r.
      replace (ndim <? given l) with false by (symmetry; now apply Nat.ltb_ge).
      destruct (Nat.eqb_spec (given l) ndim) as [->|]; [|reflexivity].
      rewrite Nat.sub_diag. cbn. now rewrite app_nil_r.
Qed.

Lemma shape_eqb_eq s : forall t, shape_eqb s t = true -> s = t.
Proof.
  induction s as [|a s IH]; intros [|b t] H; cbn in H; try discriminate; [reflexivity|].
  apply andb_true_iff in H. destruct H as [H1 H2]. apply Nat.eqb_eq in H1. f_equal; auto.
Qed.

(* Indexing the lazily generated stack is indexing the stack *)
Lemma getitem_stack {Arg V} (gen : Arg -> arr V) (dflt : V) args ax axis st i l r :
  ax < length (shp st) -> positiveaxis axis (length (shp st)) = Ok ax ->
  np_stack (map gen args) ax = Ok st ->
  supported i (length (shp st)) ->
  np_expand (tuple_of i) (length (shp st)) = Ok l -> uniform l -> bool_lists_ok l ax ->
  np_getitem st i = Ok r ->
  exists ia r0 used r',
    getitem gen dflt args i (length (shp st)) (Some (shp st)) axis = Ok (used, r') /\
    arr_eq r' r /\
    nth_error (dims l) ax = Some ia /\ resolve (length args) ia = Ok r0 /\
    Forall2 (fun p a => nth_error args p = Some a) (positions r0) used.
Proof.
  intros Hax Hpa Hst Hs Hexp (L & Hu) Hb Hr.
  assert (args <> []) as Hne by (intros ->; discriminate).
  unfold np_getitem in Hr. rewrite Hexp in Hr. cbn [bind] in Hr. unfold np_get in Hr.
  apply bind_Ok in Hr. destruct Hr as (rs & Hr & Hr'). apply bind_Ok in Hr'. destruct Hr' as (so & Hso & E).
  injection E as <-.
  destruct args as [|a0 args0]; [congruence|]. set (args := a0 :: args0) in *.
  unfold np_stack in Hst. cbn [map args] in Hst.
  change (gen a0 :: map gen args0) with (map gen args) in Hst.
  destruct (forallb _ _) eqn:Ef; [|discriminate]. injection Hst as <-. cbn [shp elt] in *.
  rewrite map_length in *.
  set (S' := shp (gen a0)) in *.
  assert (Forall (fun a => shp (gen a) = S') args) as Hgen.
  { apply Forall_forall. intros a Ha. rewrite forallb_forall in Ef. apply shape_eqb_eq, Ef. now apply in_map. }
  rewrite length_insert_at in *.
  assert (ax <= length S') as Hax' by lia. assert (1 <= S (length S')) as H1S by lia.
  destruct (getitem_tuple gen dflt args S' ax i l rs so L axis Hax' Hgen Hpa
              (expand_np _ _ _ H1S Hs Hexp) Hr Hso Hu Hb)
    as (ia & r0 & used & r' & H1 & H2 & H3 & H4 & H5).
  exists ia, r0, used, r'. repeat split; try assumption.
  - apply H2.
  - destruct H2 as [H2 H2']. intros o Ho. rewrite H2' by assumption. cbn [elt].
    eapply (out_elt_ext _ _ l _ rs so); eauto.
    2:{ rewrite H2 in Ho. exact Ho. }
    intros x Hx. cbn [full_arr elt].
    apply (inside_nth_lt _ _ ax) in Hx; [|rewrite length_insert_at; lia].
    rewrite nth_insert_same in Hx by lia.
    destruct (nth_error args (nth ax x 0)) as [a|] eqn:Ea; [|apply nth_error_None in Ea; cbn [length args] in Ea; lia].
    change (match nth ax x 0 with 0 => gen a0 | S m => nth m (map gen args0) (gen a0) end)
      with (nth (nth ax x 0) (map gen args) (gen a0)).
    erewrite nth_error_nth; [reflexivity|]. now apply map_nth_error.
Qed.
