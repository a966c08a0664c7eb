From Verif Require Import GridSpec GridProofs MergeModel MergeSpec MergeProofs.
From Coq Require Import Lia.
Local Open Scope nat_scope.
#[local] Arguments prod : simpl never.

Lemma clip_fit b sh : fit_box b sh -> clip b sh = Ok b.
Proof.
  intros F. unfold clip. rewrite (Forall2_length _ _ _ F), Nat.ltb_irrefl, skipn_all. cbn [from_zero map]. rewrite app_nil_r. apply (f_equal Ok).
  induction F as [|[o e] n b sh H F IH]; cbn [map2 fst snd] in *; [reflexivity|]. rewrite IH, !Nat.min_l by lia. do 2 f_equal. lia.
Qed.
Lemma clip_nil sh : clip [] sh = Ok (from_zero sh).
Proof. unfold clip. cbn [length map2 app skipn]. destruct (Nat.ltb_spec (length sh) 0); [lia|reflexivity]. Qed.
Lemma fit_from_zero s sh : Forall2 le s sh -> fit_box (from_zero s) sh.
Proof. induction 1; cbn [from_zero map]; constructor; [cbn [fst snd]; lia|assumption]. Qed.
Lemma in_box_range b idx : in_box b idx = true <-> in_range idx b.
Proof.
  revert idx. induction b as [|[o e] b IH]; intros [|i idx]; cbn [in_box].
  - split; [constructor|reflexivity].
  - split; [discriminate|intros H; inversion H].
  - split; [discriminate|intros H; inversion H].
  - rewrite !Bool.andb_true_iff, Nat.leb_le, Nat.ltb_lt, IH. split.
    + intros [[H1 H2] H3]. constructor; [cbn [fst snd]; lia|exact H3].
    + intros H. inversion H; subst. cbn [fst snd] in *. split; [lia|assumption].
Qed.
Lemma extents_zero s : extents (from_zero s) = s.
Proof. unfold extents, from_zero. rewrite map_map. cbn [snd]. apply map_id. Qed.
Lemma add_zero s : forall l, length l = length s -> map2 Nat.add (offsets (from_zero s)) l = l.
Proof. induction s; intros [|x l] L; cbn [length] in L; try lia; [reflexivity|]. cbn [from_zero offsets map map2 fst plus]. f_equal. apply IHs. lia. Qed.
Lemma local_zero s : forall l, length l = length s -> local (from_zero s) l = l.
Proof.
  induction s; intros [|x l] L; cbn [length] in L; try lia; [reflexivity|]. unfold local in *. cbn [from_zero offsets map map2 fst].
  rewrite Nat.sub_0_r. f_equal. apply IHs. lia.
Qed.
Lemma range_zero s idx : in_range idx (from_zero s) <-> inside s idx.
Proof.
  split.
  - revert idx. induction s; intros idx H; inversion H; subst; constructor; [cbn [fst snd] in *; lia|]. now apply IHs.
  - induction 1; cbn [from_zero map]; constructor; [cbn [fst snd]; lia|assumption].
Qed.
Lemma rev_from_zero s : rev (from_zero s) = from_zero (rev s).
Proof. unfold from_zero. now rewrite map_rev. Qed.
Lemma unrank_length sh : forall r, length (unrank sh r) = length sh.
Proof. induction sh; intros r; cbn [unrank length]; [reflexivity|]. now rewrite IHsh. Qed.
Lemma mapping_ok {A} lsh lbox lb (src : arr A) sbox s' : clip lbox lsh = Ok lb -> clip sbox (shape src) = Ok (from_zero s') -> prod (extents lb) = prod s' ->
  exists m, mapping lsh lbox src sbox = Ok m /\
    forall idx, m idx = if in_box lb idx then Some (at_ src (unrank s' (rank (extents lb) (local lb idx)))) else None.
Proof.
  intros L S P. unfold mapping. rewrite L, S. cbn [bind]. rewrite extents_zero, P, Nat.eqb_refl. eexists. split; [reflexivity|]. intros idx. cbn beta.
  rewrite add_zero by apply unrank_length. reflexivity.
Qed.
(* one row *)
Lemma unrank_row a n n' r : prod a = 1 -> r < n -> r < n' -> unrank (a ++ [n]) r = unrank (a ++ [n']) r.
Proof.
  intros P L L'. assert (G : forall n, r < n -> unrank (a ++ [n]) r = unrank a 0 ++ [r]).
  { clear n n' L L'. intros n L. pose proof (unrank_app a [n] 0 r) as U. rewrite P, prod_one in U. cbn [Nat.mul plus] in U. rewrite U by lia.
    cbn [unrank]. rewrite prod_nil, Nat.div_1_r. reflexivity. }
  rewrite !G by assumption. reflexivity.
Qed.
Lemma match_two s l keep : one_row s -> l <> [] -> prod s <> prod l -> 0 < full_lines l (prod s) ->
  let k := Nat.min (prod s) (prod l) / prod (removelast l) in
  match_shapes [s; l] keep = Ok [ (if shape_eqb s (removelast s ++ [full_lines l (prod s)]) then [] else removelast s ++ [full_lines l (prod s)]);
                                  (if shape_eqb l (removelast l ++ [k]) then [] else removelast l ++ [k])] /\
  full_lines l (prod s) <= last s 0 /\ k <= last l 0 /\ prod (removelast l) <> 0 /\ full_lines l (prod s) = k * prod (removelast l).
Proof.
  intros [NS ROW] NL NP FL k. set (P := prod (removelast l)) in *.
  assert (PZ : P <> 0) by (intros Z; unfold full_lines in FL; fold P in FL; rewrite Z in FL; lia).
  assert (FK : full_lines l (prod s) = k * P) by reflexivity.
  assert (KP : k * P <= Nat.min (prod s) (prod l)) by (unfold k; rewrite Nat.mul_comm; now apply Nat.mul_div_le).
  assert (PS : prod s = last s 0) by (rewrite (prod_last s NS), ROW; lia).
  assert (PL : prod l = P * last l 0) by (apply prod_last; exact NL).
  assert (LCM : np_lcm [1; P] = P).
  { unfold np_lcm. cbn [fold_left]. rewrite !np_lcm_step. change (Nat.lcm 1 1) with 1. rewrite Nat.lcm_1_l. reflexivity. }
  split; [|split; [lia|split; [nia|split; [exact PZ|exact FK]]]].
  unfold match_shapes. cbn [map forallb]. destruct (Nat.eqb_spec (prod s) (prod l)); [contradiction|]. cbn [andb list_min]. fold P. rewrite ROW, LCM. fold k.
  destruct (Nat.eqb_spec k 0) as [Z|NZ]; [rewrite FK, Z in FL; lia|]. rewrite Nat.div_1_r, Nat.div_mul, <- FK by exact PZ. reflexivity.
Qed.
Lemma full_lines_complete l n : l <> [] -> prod l = n -> full_lines l n = prod l.
Proof.
  intros NL <-. unfold full_lines. rewrite Nat.min_id. pose proof (prod_last l NL) as PL. destruct (Nat.eq_dec (prod (removelast l)) 0) as [Z|NZ].
  - rewrite Z in *. lia.
  - rewrite PL at 1. rewrite (Nat.mul_comm (prod (removelast l))), Nat.div_mul by exact NZ. lia.
Qed.
Lemma removelast_rev_cons {A} (n : A) rest : removelast (rev (n :: rest)) = rev rest /\ rev (n :: rest) <> [].
Proof. cbn [rev]. split; [apply removelast_last|]. intros E. now apply app_eq_nil in E. Qed.
Lemma row_le s n : s <> [] -> n <= last s 0 -> Forall2 le (removelast s ++ [n]) s.
Proof.
  intros NE L. rewrite (app_removelast_last 0 NE) at 2. apply Forall2_app; [|constructor; [exact L|constructor]].
  induction (removelast s); constructor; auto.
Qed.
Lemma slicing_usable sh n0 rest : let L := n0 :: rest in usable sh (rev L) -> exists sidx lidx k s', layout_slicing sh (rev L) = Ok (sidx, lidx) /\
  clip sidx sh = Ok (from_zero s') /\ (rev lidx = [] /\ k = n0 \/ rev lidx = from_zero (k :: rest)) /\ k <= n0 /\ prod s' = k * prod rest /\
  (forall r, r < prod s' -> unrank s' r = unrank sh r) /\ k * prod rest = full_lines (rev L) (prod sh).
Proof.
  cbv zeta. destruct (removelast_rev_cons n0 rest) as [RL NL]. assert (LL : last (rev (n0 :: rest)) 0 = n0) by (cbn [rev]; apply last_last).
  intros U. destruct (Nat.eq_dec (prod sh) (prod (rev (n0 :: rest)))) as [EQ|NEQ].
  - unfold layout_slicing. rewrite match_equal; [|discriminate|exists (prod sh); repeat constructor; congruence]. cbn [bind map from_zero rev].
    exists [], [], n0, sh. split; [reflexivity|]. split; [apply clip_nil|]. split; [left; auto|]. split; [lia|].
    assert (PL : prod (rev (n0 :: rest)) = n0 * prod rest) by (rewrite prod_rev; apply prod_cons).
    split; [congruence|]. split; [reflexivity|]. change (rev rest ++ [n0]) with (rev (n0 :: rest)). rewrite full_lines_complete by (exact NL || congruence). congruence.
  - destruct U as [U|[ROW FL]]; [contradiction|]. destruct (match_two sh (rev (n0 :: rest)) false ROW NL NEQ FL) as (M & LS & LK & PZ & FK).
    unfold layout_slicing. rewrite M. cbn [bind]. clear M. rewrite RL in *. rewrite LL in LK.
    set (F := full_lines (rev (n0 :: rest)) (prod sh)) in *. set (k := Nat.min (prod sh) (prod (rev (n0 :: rest))) / prod (rev rest)) in *.
    destruct ROW as [NS R1]. rewrite prod_rev in *.
    eexists. eexists. exists k, (removelast sh ++ [F]). split; [reflexivity|]. split; [|split; [|split; [exact LK|split; [|split]]]].
    + destruct (shape_eqb sh (removelast sh ++ [F])) eqn:SE.
      * apply shape_eqb_true in SE. cbn [from_zero map]. rewrite clip_nil. do 2 f_equal. exact SE.
      * apply clip_fit, fit_from_zero, row_le; assumption.
    + destruct (shape_eqb (rev (n0 :: rest)) (rev rest ++ [k])) eqn:SE.
      * left. split; [reflexivity|]. apply shape_eqb_true in SE. cbn [rev] in SE. apply app_inj_tail in SE. destruct SE as [_ SE]. congruence.
      * right. rewrite rev_from_zero, rev_app_distr, rev_involutive. reflexivity.
    + rewrite prod_app, R1, prod_one, FK. lia.
    + intros r LR. rewrite prod_app, R1, prod_one in LR. rewrite (app_removelast_last 0 NS) at 2. apply unrank_row; [exact R1|lia|lia].
    + symmetry. exact FK.
Qed.
Lemma in_lines n0 rest k c : inside (n0 :: rest) c -> k <= n0 -> (inside (k :: rest) c <-> rank (n0 :: rest) c < k * prod rest).
Proof.
  intros I LK. inversion I; subst. cbn [rank]. pose proof (rank_lt _ _ H3) as RL. split.
  - intros H. inversion H; subst. nia.
  - intros H. constructor; [|exact H3]. nia.
Qed.
(* one source in the stack *)
Lemma stack_map {A} K i n0 rest (d : arr A) sidx lidx k s' : i < K -> 
  clip sidx (shape d) = Ok (from_zero s') -> (rev lidx = [] /\ k = n0 \/ rev lidx = from_zero (k :: rest)) -> k <= n0 -> prod s' = k * prod rest ->
  (forall r, r < prod s' -> unrank s' r = unrank (shape d) r) ->
  exists m, mapping (K :: n0 :: rest) (full_box i (rev lidx)) d sidx = Ok m /\
    forall i' c, inside (n0 :: rest) c -> m (i' :: c) =
      if (i' =? i) && (rank (n0 :: rest) c <? k * prod rest) then Some (at_ d (unrank (shape d) (rank (n0 :: rest) c))) else None.
Proof.
  intros LI CS RL LK PS UN.
  assert (CL : clip (full_box i (rev lidx)) (K :: n0 :: rest) = Ok (full_box i (from_zero (k :: rest)))).
  { destruct RL as [[-> ->]| ->].
    - unfold clip, full_box. cbn [length skipn map2 fst snd app]. destruct (Nat.ltb_spec (S (S (length rest))) 1); [lia|]. rewrite !Nat.min_l by lia. replace (i + 1 - i) with 1 by lia. reflexivity.
    - apply clip_fit. constructor; [cbn [fst snd]; lia|]. apply fit_from_zero. constructor; [exact LK|]. clear. induction rest; constructor; auto. }
  assert (EX : extents (full_box i (from_zero (k :: rest))) = 1 :: k :: rest).
  { unfold full_box. change (extents ((i, 1) :: from_zero (k :: rest))) with (1 :: extents (from_zero (k :: rest))). now rewrite extents_zero. }
  destruct (mapping_ok (K :: n0 :: rest) (full_box i (rev lidx)) _ d sidx s' CL CS) as (m & M & V).
  { rewrite EX, !prod_cons, PS. lia. }
  exists m. split; [exact M|]. intros i' c I. rewrite V, EX. clear V M CL.
  assert (LC : length c = length (k :: rest)) by (rewrite (inside_length _ _ I); reflexivity).
  destruct (in_box (full_box i (from_zero (k :: rest))) (i' :: c)) eqn:B.
  - apply in_box_range in B. inversion B; subst. cbn [fst snd] in *. apply (proj1 (range_zero (k :: rest) c)) in H4.
    assert (i' = i) by lia. subst i'. rewrite Nat.eqb_refl. pose proof (proj1 (in_lines n0 rest k c I LK) H4) as R. cbn [andb].
    destruct (Nat.ltb_spec (rank (n0 :: rest) c) (k * prod rest)); [|lia]. f_equal. f_equal.
    assert (LO : local (full_box i (from_zero (k :: rest))) (i :: c) = 0 :: c).
    { unfold local, full_box. cbn [offsets map map2 fst]. rewrite Nat.sub_diag. f_equal. exact (local_zero (k :: rest) c LC). }
    rewrite LO. change (rank (1 :: k :: rest) (0 :: c)) with (rank (n0 :: rest) c). apply UN. rewrite PS. exact R.
  - destruct (Nat.eqb_spec i' i) as [->|NI]; [|reflexivity]. destruct (Nat.ltb_spec (rank (n0 :: rest) c) (k * prod rest)) as [R|R]; [|reflexivity].
    exfalso. apply (in_lines n0 rest k c I LK) in R. assert (T : in_box (full_box i (from_zero (k :: rest))) (i :: c) = true); [|congruence].
    apply in_box_range. constructor; [cbn [fst snd]; lia|]. now apply (proj2 (range_zero (k :: rest) c)).
Qed.
Lemma stack_maps_ok {A} K n0 rest : forall (sources : list (arr A)) i, Forall (fun d => usable (shape d) (rev (n0 :: rest))) sources -> i + length sources <= K ->
  exists maps, stack_maps (K :: n0 :: rest) i sources = Ok maps /\
    Forall2 (fun m p => forall i' c, inside (n0 :: rest) c -> m (i' :: c) =
      if (i' =? fst p) && (rank (n0 :: rest) c <? full_lines (rev (n0 :: rest)) (prod (shape (snd p))))
      then Some (at_ (snd p) (unrank (shape (snd p)) (rank (n0 :: rest) c))) else None) maps (combine (seq i (length sources)) sources).
Proof.
  induction sources as [|d sources IH]; intros i F L; cbn [stack_maps length seq combine].
  - exists []. split; [reflexivity|constructor].
  - cbn [length] in L. inversion F; subst. destruct (slicing_usable (shape d) n0 rest H1) as (sidx & lidx & k & s' & LS & CS & RL & LK & PS & UN & FK).
    change (skipn 1 (K :: n0 :: rest)) with (n0 :: rest). rewrite LS. cbn [bind].
    destruct (stack_map K i n0 rest d sidx lidx k s' ltac:(lia) CS RL LK PS UN) as (m & M & V). rewrite M. cbn [bind].
    destruct (IH (S i) H2 ltac:(lia)) as (maps & E & G). rewrite E. cbn [bind]. exists (m :: maps). split; [reflexivity|]. constructor; [|exact G].
    intros i' c I. cbn [fst snd]. rewrite (V i' c I), FK. reflexivity.
Qed.
Lemma fold_none {A} (maps : list (list nat -> option A)) idx v : Forall (fun m => m idx = None) maps ->
  fold_left (fun v m => match m idx with Some x => x | None => v end) maps v = v.
Proof. induction 1; cbn [fold_left]; [reflexivity|]. rewrite H. exact IHForall. Qed.
Lemma fold_one {A} (maps : list (list nat -> option A)) idx v j m x : nth_error maps j = Some m -> m idx = Some x ->
  (forall j' m', nth_error maps j' = Some m' -> j' <> j -> m' idx = None) ->
  fold_left (fun v m => match m idx with Some x => x | None => v end) maps v = x.
Proof.
  revert j v. induction maps as [|m0 maps IH]; intros [|j] v N MX O; cbn [nth_error fold_left] in *; try discriminate N.
  - inversion N; subst. rewrite MX. apply fold_none. apply Forall_forall. intros m' I. apply In_nth_error in I. destruct I as (j' & J). exact (O (S j') m' J ltac:(discriminate)).
  - apply (IH j); auto. intros j' m' J NE. apply (O (S j') m' J). congruence.
Qed.
Lemma Forall2_nth_error {A B} (R : A -> B -> Prop) l1 l2 : Forall2 R l1 l2 -> forall i,
  match nth_error l1 i, nth_error l2 i with Some a, Some b => R a b | None, None => True | _, _ => False end.
Proof. induction 1; intros [|i]; cbn [nth_error]; auto. apply IHForall2. Qed.
Lemma nth_error_seq_combine {A} (l : list A) : forall z i a, nth_error l i = Some a -> nth_error (combine (seq z (length l)) l) i = Some (z + i, a).
Proof.
  induction l as [|x l IH]; intros z [|i] a H; cbn [nth_error length seq combine] in *; try discriminate H.
  - inversion H; subst. rewrite Nat.add_0_r. reflexivity.
  - rewrite (IH (S z) i a H). do 2 f_equal. lia.
Qed.
Lemma stack_general {A} text et (fill : A) sm nscandim ns (sources : list (arr A)) dshape n0 rest :
  max_shape (map shape sources) = Ok dshape -> dshape <> [] -> (ns = false \/ length sources <> 1) ->
  rev (lookup sm (firstn nscandim dshape)) ++ skipn nscandim dshape = n0 :: rest ->
  Forall (fun d => usable (shape d) (rev (n0 :: rest))) sources ->
  exists out, stack text et fill sm nscandim ns sources = Ok (Virtual out) /\ shape out = length sources :: n0 :: rest /\
    forall i d c, nth_error sources i = Some d -> inside (n0 :: rest) c ->
      at_ out (i :: c) = if rank (n0 :: rest) c <? full_lines (rev (n0 :: rest)) (prod (shape d)) then at_ d (unrank (shape d) (rank (n0 :: rest) c)) else fill.
Proof.
  intros M ND NS LY F. unfold stack. rewrite M. cbn [bind]. destruct dshape as [|x dshape]; [congruence|].
  destruct (stack_maps_ok (length sources) n0 rest sources 0 F (le_n _)) as (maps & E & G).
  assert (R : (let! maps0 := stack_maps (length sources :: n0 :: rest) 0 sources in Ok (Virtual (virtual (length sources :: n0 :: rest) fill maps0)))
              = Ok (Virtual (virtual (length sources :: n0 :: rest) fill maps))) by (rewrite E; reflexivity).
  exists (virtual (length sources :: n0 :: rest) fill maps). split; [|split; [reflexivity|]].
  - cbv zeta. rewrite LY. destruct ns; [|exact R]. destruct sources as [|d [|d' sources]]; [exact R| |exact R]. destruct NS as [NS|NS]; [discriminate NS|exfalso; apply NS; reflexivity].
  - intros i d c N I. unfold virtual. cbn [at_].
    assert (Q : forall j m, nth_error maps j = Some m -> exists dj, nth_error sources j = Some dj /\ m (i :: c) =
      if (i =? j) && (rank (n0 :: rest) c <? full_lines (rev (n0 :: rest)) (prod (shape dj))) then Some (at_ dj (unrank (shape dj) (rank (n0 :: rest) c))) else None).
    { intros j m J. pose proof (Forall2_nth_error _ _ _ G j) as H. rewrite J in H. destruct (nth_error sources j) as [dj|] eqn:SJ.
      - rewrite (nth_error_seq_combine sources 0 j dj SJ) in H. exists dj. split; [reflexivity|]. exact (H i c I).
      - exfalso. assert (NC : nth_error (combine (seq 0 (length sources)) sources) j = None).
        { apply nth_error_None. rewrite combine_length, seq_length, Nat.min_id. now apply nth_error_None. }
        rewrite NC in H. exact H. }
    assert (LM : length maps = length sources).
    { rewrite (Forall2_length _ _ _ G), combine_length, seq_length, Nat.min_id. reflexivity. }
    assert (LI : i < length maps) by (rewrite LM; apply nth_error_Some; congruence).
    destruct (nth_error maps i) as [m|] eqn:MI; [|apply nth_error_None in MI; lia].
    destruct (Q i m MI) as (d' & SD & MV). assert (d' = d) by congruence. subst d'. rewrite Nat.eqb_refl in MV. cbn [andb] in MV.
    assert (OT : forall j' m', nth_error maps j' = Some m' -> j' <> i -> m' (i :: c) = None).
    { intros j' m' J' NE. destruct (Q j' m' J') as (dj & _ & V). rewrite V. destruct (Nat.eqb_spec i j'); [congruence|reflexivity]. }
    destruct (rank (n0 :: rest) c <? full_lines (rev (n0 :: rest)) (prod (shape d))).
    + exact (fold_one maps (i :: c) fill i m _ MI MV OT).
    + apply fold_none. apply Forall_forall. intros m' I'. apply In_nth_error in I'. destruct I' as (j & J).
      destruct (Nat.eq_dec j i) as [->|NE]; [congruence|]. now apply (OT j).
Qed.
Lemma rev_nonempty {A} (l : list A) : l <> [] -> exists x t, rev l = x :: t.
Proof. intros H. destruct (rev l) as [|x t] eqn:E; [|eauto]. exfalso. apply H. rewrite <- (rev_involutive l), E. reflexivity. Qed.
Theorem stack_ok : forall (A : Type) text et (fill : A) map_ ns (sources : list (arr A)) dshape,
  max_shape (map shape sources) = Ok dshape -> dshape <> [] -> (ns = false \/ length sources <> 1) ->
  let sm := lookup map_ dshape in sm <> [] -> Forall (fun d => usable (shape d) sm) sources ->
  exists out, stack text et fill map_ (length dshape) ns sources = Ok (Virtual out) /\ shape out = length sources :: rev sm /\
    forall i d c, nth_error sources i = Some d -> inside sm c ->
      at_ out (i :: rev c) = if point sm c <? full_lines sm (prod (shape d)) then at_ d (unrank (shape d) (point sm c)) else fill.
Proof.
  intros A text et fill map_ ns sources dshape M ND NS sm NM F. destruct (rev_nonempty sm NM) as (n0 & rest & R).
  assert (RR : rev (n0 :: rest) = sm) by (rewrite <- R; apply rev_involutive).
  destruct (stack_general text et fill map_ (length dshape) ns sources dshape n0 rest M ND NS) as (out & E & S & V).
  - rewrite firstn_all, skipn_all, app_nil_r. exact R.
  - rewrite RR. exact F.
  - exists out. split; [exact E|]. split; [rewrite S, R; reflexivity|]. intros i d c N I.
    assert (I' : inside (n0 :: rest) (rev c)) by (rewrite <- R; now apply inside_rev).
    rewrite (V i d (rev c) N I'), RR. rewrite <- R, rank_rev by (now apply inside_length). reflexivity.
Qed.
Theorem stack_data : forall (A : Type) text et (fill : A) map_ nscandim ns (sources : list (arr A)) scan data,
  sources <> [] -> Forall (fun d => shape d = scan ++ data) sources -> nscandim = length scan -> scan <> [] -> (ns = false \/ length sources <> 1) ->
  let sm := lookup map_ scan in sm <> [] -> prod sm = prod scan ->
  exists out, stack text et fill map_ nscandim ns sources = Ok (Virtual out) /\ shape out = length sources :: rev sm ++ data /\
    forall i d c e, nth_error sources i = Some d -> inside sm c -> inside data e ->
      at_ out (i :: rev c ++ e) = at_ d (unrank scan (point sm c) ++ e).
Proof.
  intros A text et fill map_ nscandim ns sources scan data NE F -> NS0 NS sm NM P.
  assert (M : max_shape (map shape sources) = Ok (scan ++ data)).
  { destruct sources as [|d0 sources]; [congruence|]. inversion F; subst. cbn [map]. unfold max_shape. rewrite H1.
    replace (forallb (fun s => length s =? length (scan ++ data)) (map shape sources)) with true.
    - f_equal. clear -H2. induction H2; cbn [map fold_left]; [reflexivity|]. rewrite H. replace (map2 Nat.max (scan ++ data) (scan ++ data)) with (scan ++ data); [exact IHForall|].
      clear. induction (scan ++ data); cbn [map2]; [reflexivity|]. rewrite <- IHl, Nat.max_id. reflexivity.
    - symmetry. apply forallb_forall. intros s I. apply in_map_iff in I. destruct I as (d & <- & I). rewrite Forall_forall in H2. rewrite (H2 d I). apply Nat.eqb_refl. }
  destruct (rev_nonempty sm NM) as (n0 & rest & R).
  destruct (stack_general text et fill map_ (length scan) ns sources (scan ++ data) n0 (rest ++ data) M) as (out & E & S & V).
  - intros Z. apply app_eq_nil in Z. destruct Z. contradiction.
  - exact NS.
  - rewrite firstn_app, Nat.sub_diag, firstn_all, skipn_app, skipn_all, Nat.sub_diag. cbn [firstn skipn app]. rewrite app_nil_r. fold sm. rewrite R. reflexivity.
  - rewrite Forall_forall in F |- *. intros d I. left. rewrite (F d I), prod_rev, app_comm_cons, <- R, !prod_app, prod_rev. lia.
  - exists out. split; [exact E|]. split; [rewrite S, app_comm_cons, <- R; reflexivity|]. intros i d c e N IC IE.
    assert (I' : inside (n0 :: rest ++ data) (rev c ++ e)).
    { rewrite app_comm_cons, <- R. apply Forall2_app; [now apply inside_rev|exact IE]. }
    rewrite (V i d _ N I'). rewrite Forall_forall in F. assert (SD : shape d = scan ++ data) by (apply F; now apply nth_error_In in N).
    assert (RK : rank (n0 :: rest ++ data) (rev c ++ e) = point sm c * prod data + rank data e).
    { rewrite app_comm_cons, <- R, rank_app by (rewrite !rev_length; now apply inside_length). rewrite rank_rev by (now apply inside_length). reflexivity. }
    assert (PC : point sm c < prod scan).
    { rewrite <- P, <- (prod_rev sm), <- rank_rev by (now apply inside_length). apply rank_lt, inside_rev, IC. }
    pose proof (rank_lt _ _ IE) as RE. rewrite RK, SD. rewrite full_lines_complete.
    + destruct (Nat.ltb_spec (point sm c * prod data + rank data e) (prod (rev (n0 :: rest ++ data)))) as [L|L].
      * f_equal. rewrite unrank_app by assumption. rewrite unrank_rank by exact IE. reflexivity.
      * exfalso. rewrite prod_rev, app_comm_cons, <- R, prod_app, prod_rev, P in L. nia.
    + apply removelast_rev_cons.
    + rewrite prod_rev, app_comm_cons, <- R, !prod_app, prod_rev. lia.
Qed.
