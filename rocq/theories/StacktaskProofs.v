From Verif Require Import BaseProofs ListToolsProofs AxisSegProofs StacktaskModel StacktaskSpec.
From Coq Require Import Lia Permutation Sorting.Sorted Qround.
Local Open Scope list_scope.
Local Open Scope nat_scope.

Lemma str_eqb a b : String.eqb a b = true <-> a = b.
Proof. apply String.eqb_eq. Qed.
Lemma add_sources {D} name : forall (l : list (string * D)) groups,
  lookup String.eqb name (fold_left add_source l groups) =
  match lookup String.eqb name groups with
  | Some g => Some (g ++ named name l)
  | None => match named name l with [] => None | g => Some g end
  end.
Proof.
  induction l as [|[k d] l IH]; intros groups; cbn [fold_left].
  - unfold named. cbn. destruct (lookup String.eqb name groups); [now rewrite app_nil_r|reflexivity].
  - rewrite IH. clear IH. unfold add_source. cbn [fst snd]. unfold named. cbn [filter fst]. destruct (String.eqb name k) eqn:E.
    + apply String.eqb_eq in E. subst k. destruct (lookup String.eqb name groups) as [g|] eqn:L; rewrite lookup_assign_same by (exact str_eqb || apply String.eqb_refl); cbn [map snd]; [now rewrite <- app_assoc|reflexivity].
    + assert (lookup String.eqb name (match lookup String.eqb k groups with Some g => assign String.eqb k (g ++ [d]) groups | None => assign String.eqb k [d] groups end) = lookup String.eqb name groups) as ->; [|reflexivity].
      destruct (lookup String.eqb k groups); apply lookup_assign_other; try exact str_eqb; intros X; subst; rewrite String.eqb_refl in E; discriminate.
Qed.
Theorem sources {D} (outputs : list (list (string * D))) name :
  lookup String.eqb name (stack_sources outputs) = match named name (List.concat outputs) with [] => None | g => Some g end.
Proof. unfold stack_sources. now rewrite add_sources. Qed.

(* ---- sorting ---- *)
Lemma numbers_some : forall l r, numbers l = Some r -> l = map Some r.
Proof.
  induction l as [|[x|] l IH]; intros r H; cbn [numbers] in H; [|destruct (numbers l) as [r0|] eqn:E; [|discriminate]|discriminate].
  - destruct r; [reflexivity|discriminate].
  - assert (r = x :: r0) as -> by congruence. cbn [map]. now rewrite <- (IH r0 eq_refl).
Qed.
Lemma take_ok {A} (d : A) l : forall idx, (forall i, In i idx -> i < List.length l) -> take l idx = Ok (map (fun i => nth i l d) idx).
Proof.
  induction idx as [|i idx IH]; intros H; [reflexivity|]. unfold take in *. cbn [mapM]. rewrite (nth_error_nth' l d) by (apply H; now left). cbn [bind]. rewrite IH by (intros; apply H; now right). reflexivity.
Qed.
Lemma take_length {A} (l : list A) idx r : take l idx = Ok r -> List.length r = List.length idx.
Proof. unfold take. intros H. apply mapM_Ok_Forall2 in H. induction H; cbn; congruence. Qed.
Definition pair_leb (a b : Qc * nat) : bool := Qc_leb (fst a) (fst b).
Lemma pair_total x y : pair_leb x y = true \/ pair_leb y x = true.
Proof. unfold pair_leb. destruct (Qc_leb (fst x) (fst y)) eqn:E; [auto|]. right. qc_bool. apply Qc_leb_le. now apply Qclt_le_weak. Qed.
Lemma pair_trans x y z : pair_leb x y = true -> pair_leb y z = true -> pair_leb x z = true.
Proof. unfold pair_leb. intros A B. apply Qc_leb_le in A, B. apply Qc_leb_le. eapply Qcle_trans; eauto. Qed.
Definition positions (l : list Qc) : list (Qc * nat) := sorted pair_leb (combine l (seq 0 (List.length l))).
Lemma argsort_positions l : argsort l = map snd (positions l).
Proof. reflexivity. Qed.
Lemma combine_seq_in {A} : forall (l : list A) k x i, In (x, i) (combine l (seq k (List.length l))) -> k <= i /\ nth_error l (i - k) = Some x.
Proof.
  induction l as [|a l IH]; intros k x i H; [destruct H|]. cbn [List.length seq combine In] in H. destruct H as [H|H].
  - assert (a = x) as -> by congruence. assert (k = i) as -> by congruence. rewrite Nat.sub_diag. auto.
  - apply IH in H as [H1 H2]. split; [lia|]. replace (i - k) with (S (i - S k)) by lia. exact H2.
Qed.
Lemma positions_in l x i : In (x, i) (positions l) -> nth_error l i = Some x /\ i < List.length l.
Proof.
  intros H. apply (Permutation_in _ (sorted_perm _ _)) in H. apply combine_seq_in in H as [_ H]. rewrite Nat.sub_0_r in H. split; [exact H|]. apply nth_error_Some. congruence.
Qed.
Lemma combine_positions {B} (l : list Qc) (lst : list B) d : List.length lst = List.length l ->
  Permutation (combine (map fst (positions l)) (map (fun i => nth i lst d) (map snd (positions l)))) (combine l lst).
Proof.
  intros L. assert (forall s : list (Qc * nat), combine (map fst s) (map (fun i => nth i lst d) (map snd s)) = map (fun p => (fst p, nth (snd p) lst d)) s) as A by (induction s as [|p s IH]; [reflexivity|]; cbn; now rewrite IH).
  rewrite A. unfold positions. rewrite (Permutation_map _ (sorted_perm _ _)). clear A.
  assert (forall (l : list Qc) k (lst0 : list B), (forall i, i < List.length l -> nth (k + i) lst d = nth i lst0 d) -> List.length lst0 = List.length l -> map (fun p => (fst p, nth (snd p) lst d)) (combine l (seq k (List.length l))) = combine l lst0) as A.
  { clear. induction l as [|x l IH]; intros k lst0 H L; [reflexivity|]. destruct lst0 as [|y lst0]; [discriminate|]. cbn [List.length seq combine map fst snd]. f_equal.
    - specialize (H 0). cbn in H. rewrite Nat.add_0_r in H. rewrite H by lia. reflexivity.
    - apply IH; [|cbn in L; lia]. intros i I. specialize (H (S i)). cbn in H. rewrite <- H by lia. f_equal. lia. }
  rewrite (A l 0 lst); [reflexivity|reflexivity|exact L].
Qed.
Lemma positions_length l : List.length (positions l) = List.length l.
Proof. unfold positions. rewrite (Permutation_length (sorted_perm _ _)), combine_length, seq_length. lia. Qed.
Theorem ordered {D} (axis : list (option Qc)) l (groups : list (string * list D)) : numbers axis = Some l -> (forall g, In g groups -> List.length (snd g) = List.length l) ->
  exists l' gs, order axis groups = Ok (map Some l', gs) /\ Permutation l' l /\ StronglySorted (fun x y => (x <= y)%Qc) l' /\
    Forall2 (fun g g' => fst g' = fst g /\ List.length (snd g') = List.length (snd g) /\ Permutation (combine l' (snd g')) (combine l (snd g))) groups gs.
Proof.
  intros N H. pose proof (numbers_some _ _ N) as Hax. unfold order. rewrite N. rewrite argsort_positions.
  assert (exists gs, mapM (fun g => let! s := take (snd g) (map snd (positions l)) in Ok (fst g, s)) groups = Ok gs /\
    Forall2 (fun g g' => fst g' = fst g /\ List.length (snd g') = List.length (snd g) /\ Permutation (combine (map fst (positions l)) (snd g')) (combine l (snd g))) groups gs) as (gs & E & F).
  { clear Hax N. induction groups as [|[nm g] groups IH]; [exists []; split; [reflexivity|constructor]|]. destruct IH as (gs & E & F); [intros; apply H; now right|].
    pose proof (H (nm, g) (or_introl eq_refl)) as L. cbn [snd] in L.
    assert (exists s, take g (map snd (positions l)) = Ok s /\ List.length s = List.length g /\ Permutation (combine (map fst (positions l)) s) (combine l g)) as (s & S1 & S2 & S3).
    { destruct g as [|d g].
      - destruct l as [|? ?]; [|discriminate]. exists []. repeat split. constructor.
      - exists (map (fun i => nth i (d :: g) d) (map snd (positions l))). split; [|split].
        + apply take_ok. intros i I. apply in_map_iff in I as ([x j] & <- & I). apply positions_in in I as [_ I]. cbn [snd]. lia.
        + rewrite !map_length, positions_length. congruence.
        + apply combine_positions. exact L. }
    cbn [mapM fst snd]. rewrite S1. cbn [bind]. rewrite E. cbn [bind]. eexists. split; [reflexivity|]. constructor; [|exact F]. cbn [fst snd]. auto. }
  rewrite E. cbn [bind].
  assert (take axis (map snd (positions l)) = Ok (map Some (map fst (positions l)))) as ->.
  { rewrite Hax. assert (forall s, (forall x i, In (x, i) s -> nth_error l i = Some x) -> take (map Some l) (map snd s) = Ok (map Some (map fst s))) as G.
    { induction s as [|[x i] s IH]; intros Q; [reflexivity|]. unfold take in *. cbn [map fst snd mapM]. rewrite nth_error_map, (Q x i) by now left. cbn [option_map bind]. rewrite IH by (intros; apply Q; now right). reflexivity. }
    apply G. intros x i I. now apply positions_in in I as [I _]. }
  cbn [bind]. exists (map fst (positions l)), gs. split; [reflexivity|]. split; [|split].
  - unfold positions. rewrite (Permutation_map fst (sorted_perm _ _)). assert (forall (l : list Qc) k, map fst (combine l (seq k (List.length l))) = l) as G by (induction l0 as [|x l0 IHl]; intros k; [reflexivity|]; cbn; f_equal; apply IHl). now rewrite G.
  - assert (StronglySorted (fun x y => pair_leb x y = true) (positions l)) as S by (apply sorted_sorted; [exact pair_total|exact pair_trans]). revert S. generalize (positions l). clear. induction 1 as [|p s S IH F]; [constructor|]. cbn [map]. constructor; [exact IH|].
    apply Forall_forall. intros x I. apply in_map_iff in I as (q & <- & I). rewrite Forall_forall in F. specialize (F q I). unfold pair_leb in F. now apply Qc_leb_le in F.
  - exact F.
Qed.
Theorem not_ordered {D} (axis : list (option Qc)) (groups : list (string * list D)) : In None axis -> order axis groups = Ok (axis, groups).
Proof. intros H. unfold order. assert (numbers axis = None) as ->; [|reflexivity]. induction axis as [|[x|] axis IH]; [destruct H| |reflexivity]. cbn [numbers]. destruct H as [H|H]; [discriminate|]. now rewrite IH. Qed.
Theorem too_few {D} (axis : list (option Qc)) (groups : list (string * list D)) g : ~ In None axis -> In g groups -> List.length (snd g) < List.length axis -> order axis groups = Err IndexError.
Proof.
  intros N I L. assert (exists l, numbers axis = Some l) as (l & E).
  { clear - N. induction axis as [|[x|] axis IH]; [now exists []| |exfalso; apply N; now left]. destruct IH as (r & E); [intros H; apply N; now right|]. cbn [numbers]. rewrite E. eauto. }
  unfold order. rewrite E. apply numbers_some in E. subst axis. rewrite map_length in L. rewrite argsort_positions.
  assert (forall (l0 : list D) idx, (exists i, In i idx /\ List.length l0 <= i) -> take l0 idx = Err IndexError) as T.
  { intros l0. induction idx as [|i idx IH]; intros (j & J & Q); [destruct J|]. destruct J as [J|J].
    - subst. unfold take. cbn [mapM]. assert (nth_error l0 j = None) as -> by (apply nth_error_None; exact Q). reflexivity.
    - unfold take in *. cbn [mapM]. destruct (nth_error l0 i); [|reflexivity]. cbn [bind]. rewrite IH by eauto. reflexivity. }
  assert (forall gs : list (string * list D), (exists g, In g gs /\ List.length (snd g) < List.length l) -> mapM (fun g => let! s := take (snd g) (map snd (positions l)) in Ok (fst g, s)) gs = Err IndexError) as G.
  { induction gs as [|g0 gs IH]; intros (g1 & J & Q); [destruct J|]. destruct J as [J|J].
    - subst. cbn [mapM]. rewrite T; [reflexivity|]. exists (List.length l - 1). split; [|lia]. apply in_map_iff. destruct (nth_error l (List.length l - 1)) as [x|] eqn:X; [|apply nth_error_None in X; lia].
      exists (x, List.length l - 1). split; [reflexivity|]. apply (Permutation_in _ (Permutation_sym (sorted_perm _ _))).
      assert (forall (l : list Qc) k i x, nth_error l i = Some x -> In (x, k + i) (combine l (seq k (List.length l)))) as C.
      { clear. induction l as [|a l IH]; intros k [|i] x X; try discriminate; cbn [List.length seq combine In].
        - left. cbn in X. rewrite Nat.add_0_r. congruence.
        - right. replace (k + S i) with (S k + i) by lia. now apply IH. }
      apply (C l 0). exact X.
    - cbn [mapM]. destruct (take (snd g0) (map snd (positions l))) as [s|e] eqn:S0.
      + cbn [bind]. rewrite IH by eauto. reflexivity.
      + cbn [bind]. unfold take in S0. f_equal. assert (forall idx e, mapM (fun i => match nth_error (snd g0) i with Some x => Ok x | None => Err IndexError end) idx = Err e -> e = IndexError) as K.
        { clear. induction idx as [|i idx IH]; intros e H; [discriminate|]. cbn [mapM] in H. destruct (nth_error (snd g0) i); cbn [bind] in H; [|congruence]. destruct (mapM _ idx) as [r|e'] eqn:M; cbn [bind] in H; [discriminate|]. assert (e' = e) as -> by congruence. now apply IH. }
        now apply K in S0. }
  rewrite G by eauto. reflexivity.
Qed.
Theorem too_many {D} (axis : list (option Qc)) l (groups : list (string * list D)) ax gs : numbers axis = Some l -> order axis groups = Ok (ax, gs) -> Forall (fun g => List.length (snd g) = List.length l) gs.
Proof.
  intros N H. unfold order in H. rewrite N in H. destruct (mapM _ groups) as [gs0|] eqn:M; [|discriminate]. cbn [bind] in H. destruct (take axis (argsort l)); [|discriminate]. cbn [bind] in H. assert (gs0 = gs) as -> by congruence. clear H.
  apply mapM_Ok_Forall2 in M. induction M as [|g g' gr gs E M IH]; constructor; [|exact IH]. destruct (take (snd g) (argsort l)) as [s|] eqn:T; [|discriminate]. cbn [bind] in E. assert (g' = (fst g, s)) as -> by congruence. cbn [snd].
  rewrite (take_length _ _ _ T), argsort_positions, map_length. apply positions_length.
Qed.
(* ---- execute ---- *)
Theorem shape_ignored {D} shape shape' positioner parsed (datashape : D -> Z * Z) groups : execute shape positioner parsed datashape groups = execute shape' positioner parsed datashape groups.
Proof. reflexivity. Qed.
Theorem no_shape {D} shape positioner (datashape : D -> Z * Z) groups : lookup String.eqb "parameters"%string groups = None -> execute shape positioner (Ok None) datashape groups = Err KeyError.
Proof. intros H. unfold execute. cbn [bind]. now rewrite H. Qed.
Theorem axes_stack {D} shape axis scan (datashape : D -> Z * Z) groups out axes : (forall g, In g groups -> List.length (snd g) = List.length axis) -> execute shape (Some axis) (Ok (Some scan)) datashape groups = Ok (out, axes) ->
  forall g b, In (g, b) out -> merged_shape (List.length (snd g)) b scan = axes.
Proof.
  intros L H g b I. unfold execute in H. cbn [bind] in H. destruct (order axis groups) as [[ax gs]|] eqn:O; [|discriminate]. cbn [bind] in H.
  match type of H with Ok (?a, ?e) = _ => assert (out = a) as -> by congruence; assert (axes = e) as -> by congruence end. apply in_map_iff in I as (g0 & E & I). assert (g0 = g) as -> by congruence.
  assert (b = true) as -> by (rewrite Bool.andb_false_r in E; cbn in E; congruence). unfold merged_shape. cbn [app]. f_equal. f_equal.
  assert (List.length (snd g) = List.length axis /\ List.length ax = List.length axis) as [-> ->]; [|reflexivity].
  unfold order in O. destruct (numbers axis) as [l|] eqn:N.
  - assert (List.length axis = List.length l) as LA by (rewrite (numbers_some _ _ N); apply map_length).
    assert (order axis groups = Ok (ax, gs)) as O2 by (unfold order; rewrite N; exact O). pose proof (too_many _ _ _ _ _ N O2) as TM. rewrite Forall_forall in TM. specialize (TM g I). split; [congruence|].
    destruct (mapM _ groups) as [gs0|]; [|discriminate]. cbn [bind] in O. destruct (take axis (argsort l)) as [ax0|] eqn:T; [|discriminate]. cbn [bind] in O. assert (ax0 = ax) as -> by congruence.
    rewrite (take_length _ _ _ T), argsort_positions, map_length, positions_length. congruence.
  - assert (gs = groups) as -> by congruence. assert (ax = axis) as -> by congruence. auto.
Qed.
Theorem axes_nostack {D} shape scan (datashape : D -> Z * Z) groups out axes : execute shape None (Ok (Some scan)) datashape groups = Ok (out, axes) ->
  axes = [snd scan; fst scan] /\ forall g b, In (g, b) out -> In g groups /\ (merged_shape (List.length (snd g)) b scan = axes <-> List.length (snd g) = 1).
Proof.
  intros H. unfold execute in H. cbn [bind app] in H. match type of H with Ok (?a, ?e) = _ => assert (out = a) as -> by congruence; assert (axes = e) as -> by congruence end. split; [reflexivity|].
  intros g b I. apply in_map_iff in I as (g0 & E & I). assert (g0 = g) as -> by congruence. split; [exact I|]. assert (b = negb ((List.length (snd g) =? 1) && true)) as -> by congruence. rewrite Bool.andb_true_r. destruct (List.length (snd g) =? 1) eqn:Q.
  - apply Nat.eqb_eq in Q. cbn. tauto.
  - apply Nat.eqb_neq in Q. cbn [negb merged_shape app]. split; [|congruence]. unfold merged_shape. cbn [app]. intros X. exfalso. apply (f_equal (@List.length Z)) in X. discriminate.
Qed.
(* ---- entries and titles ---- *)
Theorem first_entry {E} int (title : E -> list string) task e l : entries task = e :: l -> scan_shape int title task = shape_parser int (title e).
Proof. intros H. unfold scan_shape. now rewrite H. Qed.
Theorem shape_fscan2d int parts a b x y : nth_error parts 0 = Some "fscan2d"%string -> nth_error parts 4 = Some a -> nth_error parts 8 = Some b -> int a = Some x -> int b = Some y -> shape_parser int parts = Ok (Some (y, x)).
Proof. intros H0 A B X Y. destruct parts as [|c parts]; [discriminate|]. cbn in H0. assert (c = "fscan2d"%string) as -> by congruence. unfold shape_parser, part_int. rewrite A, B, X, Y. reflexivity. Qed.
Theorem shape_l2scan int parts a b x y : nth_error parts 0 = Some "l2scan"%string -> nth_error parts 4 = Some a -> nth_error parts 8 = Some b -> int a = Some x -> int b = Some y -> shape_parser int parts = Ok (Some (x, (y + 1)%Z)).
Proof. intros H0 A B X Y. destruct parts as [|c parts]; [discriminate|]. cbn in H0. assert (c = "l2scan"%string) as -> by congruence. unfold shape_parser, part_int. rewrite A, B, X, Y. reflexivity. Qed.
Theorem shape_other int parts c : nth_error parts 0 = Some c -> c <> "fscan2d"%string -> c <> "l2scan"%string ->
  (forall a b x y, nth_error parts 4 = Some a -> nth_error parts 8 = Some b -> int a = Some x -> int b = Some y -> shape_parser int parts = Ok (Some ((x + 1)%Z, (y + 1)%Z))) /\
  (nth_error parts 8 = None \/ (exists a, nth_error parts 4 = Some a /\ int a = None) \/ (exists b, nth_error parts 8 = Some b /\ int b = None) -> shape_parser int parts = Ok None).
Proof.
  intros H0 N1 N2. destruct parts as [|c0 parts]; [discriminate|]. cbn in H0. assert (c0 = c) as -> by congruence. apply String.eqb_neq in N1, N2. split.
  - intros a b x y A B X Y. unfold shape_parser, part_int. rewrite N1, N2, A, B, X, Y. reflexivity.
  - intros H. unfold shape_parser, part_int. rewrite N1, N2. destruct (nth_error (c :: parts) 4) as [a|] eqn:A; [|reflexivity]. destruct (int a) as [x|] eqn:X; [|reflexivity]. cbn [bind].
    destruct (nth_error (c :: parts) 8) as [b|] eqn:B; [|reflexivity]. destruct (int b) as [y|] eqn:Y; [|reflexivity]. exfalso. destruct H as [H|[(a' & H & H')|(b' & H & H')]]; congruence.
Qed.

(* ---- parameters of the alignment ---- *)
Theorem reference_names n : prepare_reference n (RName "first") = Ok (Some 0%Z) /\ prepare_reference n (RName "last") = Ok (Some (-1)%Z) /\
  exists m, prepare_reference n (RName "middle") = Ok (Some m) /\ (2 * m <= Z.of_nat n < 2 * m + 2)%Z.
Proof. split; [reflexivity|split; [reflexivity|]]. exists (Z.of_nat n / 2)%Z. split; [reflexivity|]. pose proof (Z.div_mod (Z.of_nat n) 2 ltac:(lia)). pose proof (Z.mod_pos_bound (Z.of_nat n) 2 ltac:(lia)). lia. Qed.
Theorem reference_unknown n s : s <> "first"%string -> s <> "last"%string -> s <> "middle"%string -> prepare_reference n (RName s) = Err ValueError.
Proof. intros A B C. apply String.eqb_neq in A, B, C. unfold prepare_reference. now rewrite A, B, C. Qed.
Theorem reference_as_given n z : prepare_reference n (RInt z) = Ok (Some z) /\ prepare_reference n RPairwise = Ok None.
Proof. split; reflexivity. Qed.
Lemma floor_bounds q : (Qc_of_Z (Qfloor (this q)) <= q /\ q < Qc_of_Z (Qfloor (this q)) + 1)%Qc.
Proof.
  split.
  - unfold Qcle, Qc_of_Z. cbn [this Q2Qc]. rewrite Qred_correct. apply Qfloor_le.
  - pose proof (Qlt_floor (this q)) as H. unfold Qclt, Qcplus, Qc_of_Z. cbn [this Q2Qc]. rewrite !Qred_correct. rewrite inject_Z_plus in H. exact H.
Qed.
Lemma round_half q : (Qc_of_Z (round_even q) - Q2Qc (1 # 2) <= q <= Qc_of_Z (round_even q) + Q2Qc (1 # 2))%Qc.
Proof.
  destruct (floor_bounds q) as [A B]. unfold round_even. set (f := Qfloor (this q)) in *.
  assert (Qc_of_Z (f + 1) = Qc_of_Z f + 1)%Qc as P by (apply Qc_is_canon; unfold Qcplus, Qc_of_Z; cbn [this Q2Qc]; rewrite !Qred_correct, inject_Z_plus; reflexivity).
  destruct (Qc_ltb (q - Qc_of_Z f) (Q2Qc (1 # 2))) eqn:E1; [|destruct (Qc_ltb (Q2Qc (1 # 2)) (q - Qc_of_Z f)) eqn:E2; [|destruct (Z.even f)]]; rewrite ?P; qc_bool; split; qclra.
Qed.
Theorem reference_fraction n q : exists z, prepare_reference n (RFraction q) = Ok (Some z) /\ (Qc_of_Z z - Q2Qc (1 # 2) <= q * Qc_of_Z (Z.of_nat n) <= Qc_of_Z z + Q2Qc (1 # 2))%Qc.
Proof. eexists. split; [reflexivity|]. apply round_half. Qed.
Theorem reference_end n : prepare_reference n (RFraction 1) = Ok (Some (Z.of_nat n)).
Proof. unfold prepare_reference. rewrite Qcmult_1_l, round_even_Z. reflexivity. Qed.
Theorem raw_none m o : rawcalc m o = None <-> m = None /\ o = None.
Proof. destruct m, o; cbn; split; intros H; try discriminate; try tauto; destruct H; discriminate. Qed.
Theorem raw_both m o x f : rawcalc (Some m) (Some o) = Some f -> f x = (m * x + o)%Qc.
Proof. cbn. intros H. assert (f = (fun x => m * x + o)%Qc) as -> by congruence. reflexivity. Qed.
Theorem raw_one a x f : (rawcalc (Some a) None = Some f -> f x = (a * x)%Qc) /\ (rawcalc None (Some a) = Some f -> f x = (x + a)%Qc).
Proof. cbn. split; intros H; [assert (f = (fun x => a * x + 0)%Qc) as -> by congruence|assert (f = (fun x => 1 * x + a)%Qc) as -> by congruence]; ring. Qed.
Lemma numbers_of l : numbers (map Some l) = Some l.
Proof. induction l as [|x l IH]; [reflexivity|]. cbn. now rewrite IH. Qed.
Theorem ordered_values {D} l (groups : list (string * list D)) : (forall g, In g groups -> List.length (snd g) = List.length l) ->
  exists l' gs, order (map Some l) groups = Ok (map Some l', gs) /\ Permutation l' l /\ StronglySorted (fun x y => (x <= y)%Qc) l' /\
    Forall2 (fun g g' => fst g' = fst g /\ List.length (snd g') = List.length (snd g) /\ Permutation (combine l' (snd g')) (combine l (snd g))) groups gs.
Proof. apply ordered. apply numbers_of. Qed.
Theorem dropped {D} l (groups : list (string * list D)) ax gs : order (map Some l) groups = Ok (ax, gs) -> Forall (fun g => List.length (snd g) = List.length l) gs.
Proof. apply too_many. apply numbers_of. Qed.
Theorem shape_errors int parts c : nth_error parts 0 = Some c -> c = "fscan2d"%string \/ c = "l2scan"%string ->
  (List.length parts <= 4 -> shape_parser int parts = Err IndexError) /\
  (forall a b, nth_error parts 4 = Some a -> nth_error parts 8 = Some b -> int a = None \/ int b = None -> shape_parser int parts = Err ValueError).
Proof.
  intros H0 H. destruct parts as [|c0 parts]; [discriminate|]. cbn in H0. assert (c0 = c) as -> by congruence. split.
  - intros L. assert (nth_error (c :: parts) 4 = None) as N4 by (apply nth_error_None; exact L). assert (nth_error (c :: parts) 8 = None) as N8 by (apply nth_error_None; lia).
    destruct H as [-> | ->]; unfold shape_parser, part_int; rewrite N4, N8; reflexivity.
  - intros a b A B I. destruct H as [-> | ->]; unfold shape_parser, part_int; rewrite A, B; destruct (int a), (int b); try reflexivity; destruct I; discriminate.
Qed.
Theorem entries_nested {E} (l1 l2 : list (dep E)) (d : dep E) (e : E) :
  entries (DTask (l1 ++ d :: l2)) = entries (DTask l1) ++ entries d ++ entries (DTask l2) /\ entries (DPath true e) = [e] /\ entries (DPath false e) = [].
Proof. split; [|split; reflexivity]. cbn [entries]. rewrite flat_map_app. reflexivity. Qed.
