From Verif Require Import BaseProofs H5gridProofs ScenedataModel ScenedataSpec ScenedataProofs QcTac AxisSpec.
From Verif Require AxisModel AxisProofs.
From Coq Require Import Lia.
Local Open Scope list_scope.
Local Open Scope nat_scope.

Lemma Forall2_len {A B} {R : A -> B -> Prop} {l l'} (H : Forall2 R l l') : List.length l = List.length l'.
Proof. induction H; cbn; congruence. Qed.
Lemma fits_refl l : fits l l = true.
Proof. destruct l as [|a l]; [reflexivity|]. cbn [fits]. rewrite Nat.ltb_irrefl, Nat.sub_diag. cbn [skipn]. apply broadcast_refl. Qed.
Lemma show_ok {P} (g : stack P) dst : forall its i d c l, show g dst its i = Ok (d, c, l) -> (forall x, In (Some x) its -> selected (fst x) (gshape g) = Ok dst) ->
  List.length c = List.length its /\ List.length d = some_count its /\ List.length l = some_count its /\
  forall k o, nth_error its k = Some o -> match o with
    | None => nth_error c k = Some None
    | Some (idx, lab) => nth_error c k = Some (Some (i + some_count (firstn k its))) /\ nth_error l (some_count (firstn k its)) = Some lab /\
        exists f, nth_error d (some_count (firstn k its)) = Some f /\ forall p, inside p dst = true -> f p = gread g (position idx (gshape g) p)
    end.
Proof.
  induction its as [|[[idx lab]|] its IH]; intros i d c l H S0; cbn [show] in H.
  - assert (d = []) as -> by congruence. assert (c = []) as -> by congruence. assert (l = []) as -> by congruence. repeat split. intros [|k] o E; discriminate.
  - pose proof (S0 (idx, lab) (or_introl eq_refl)) as S1. cbn [fst] in S1. rewrite S1 in H. cbn [bind] in H. rewrite fits_refl in H. destruct (show g dst its (S i)) as [[[d0 c0] l0]|] eqn:R; [|discriminate]. cbn [bind] in H.
    apply IH in R as (R1 & R2 & R3 & R4); [|intros x I; apply S0; now right].
    match type of H with Ok (?a, ?b, ?e) = _ => assert (d = a) as -> by congruence; assert (c = b) as -> by congruence; assert (l = e) as -> by congruence end. clear H.
    split; [cbn; congruence|]. split; [cbn; f_equal; exact R2|]. split; [cbn; f_equal; exact R3|]. intros [|k] o E; cbn [nth_error firstn] in *.
    + assert (o = Some (idx, lab)) as -> by congruence. cbn [some_count filter List.length nth_error]. split; [f_equal; f_equal; lia|]. split; [reflexivity|]. eexists. split; [reflexivity|].
      intros p I. cbv beta. rewrite Nat.sub_diag. cbn [repeat skipn app]. rewrite clip_inside by exact I. reflexivity.
    + specialize (R4 k o E). change (some_count (Some (idx, lab) :: firstn k its)) with (S (some_count (firstn k its))). cbn [nth_error]. destruct o as [[idx' lab']|]; [|exact R4].
      replace (i + S (some_count (firstn k its))) with (S i + some_count (firstn k its)) by lia. exact R4.
  - destruct (show g dst its i) as [[[d0 c0] l0]|] eqn:R; [|discriminate]. cbn [bind] in H. apply IH in R as (R1 & R2 & R3 & R4); [|intros x I; apply S0; now right].
    match type of H with Ok (?a, ?b, ?e) = _ => assert (d = a) as -> by congruence; assert (c = b) as -> by congruence; assert (l = e) as -> by congruence end. clear H.
    split; [cbn; congruence|]. split; [exact R2|]. split; [exact R3|]. intros [|k] o E; cbn [nth_error firstn] in *.
    + assert (o = None) as -> by congruence. reflexivity.
    + specialize (R4 k o E). exact R4.
Qed.
Lemma swap_swap l : swap (swap l) = l.
Proof. destruct l as [|a [|b l]]; reflexivity. Qed.
(* the items selected for display *)
Definition chosen (items : list (list index * string)) (i : option Z) (o : option (list index * string)) : Prop :=
  match i, o with None, None => True | Some i, Some x => py_get items i = Ok x | _, _ => False end.
Lemma mapM_chosen items l : forall its, mapM (fun i => match i with None => Ok None | Some i => let! x := py_get items i in Ok (Some x) end) l = Ok its -> Forall2 (chosen items) l its.
Proof.
  intros its H. apply mapM_Ok_Forall2 in H. induction H as [|i o l its E H IH]; constructor; [|exact IH]. destruct i as [i|]; cbn.
  - destruct (py_get items i) as [x|]; [|discriminate]. cbn [bind] in E. assert (o = Some x) as -> by congruence. reflexivity.
  - assert (o = None) as -> by congruence. exact I.
Qed.
Lemma chosen_count items l its : Forall2 (chosen items) l its -> forall k, some_count (firstn k its) = some_count (firstn k l).
Proof.
  induction 1 as [|i o l its C H IH]; intros [|k]; try reflexivity. cbn [firstn]. specialize (IH k). destruct i as [i|], o as [o|]; cbn in C; try contradiction.
  - change (S (some_count (firstn k its)) = S (some_count (firstn k l))). congruence.
  - exact IH.
Qed.
Lemma py_get_in {A} (l : list A) i x : py_get l i = Ok x -> In x l.
Proof. unfold py_get. destruct (py_pos _ _) as [k|]; [|discriminate]. destruct (nth_error l k) as [y|] eqn:E; [|discriminate]. intros H. assert (y = x) as -> by congruence. now apply nth_error_In in E. Qed.
Theorem display {P} (g : stack P) ia items sel sh d c l t : (forall x, In x items -> selected (fst x) (gshape g) = Ok (map snd (axes_of g))) -> transpose g ia = Ok t ->
  displaydata g ia items (Some sel) = Ok (sh, d, c, l) ->
  List.length c = List.length sel /\ List.length d = some_count sel /\ List.length l = some_count sel /\
  forall k, (nth_error sel k = Some None -> nth_error c k = Some None) /\
    forall i, nth_error sel k = Some (Some i) -> exists n f idx lab, n = some_count (firstn k sel) /\ nth_error c k = Some (Some n) /\ nth_error d n = Some f /\ nth_error l n = Some lab /\ py_get items i = Ok (idx, lab) /\
      forall p, inside p (map snd (axes_of g)) = true -> f (if t then swap p else p) = gread g (position idx (gshape g) p).
Proof.
  intros S0 T H. unfold displaydata in H. destruct (mapM _ sel) as [its|] eqn:M; [|discriminate]. cbn [bind] in H. apply mapM_chosen in M.
  destruct (show g (map snd (axes_of g)) its 0) as [[[d0 c0] l0]|] eqn:R; [|discriminate]. cbn [bind] in H. rewrite T in H. cbn [bind] in H.
  apply show_ok in R as (R1 & R2 & R3 & R4).
  2:{ intros x I. apply S0. apply In_nth_error in I as (k & K). clear - M K. revert k K. induction M as [|i o l its C M IH]; intros [|k] K; try discriminate; [|eapply IH; eauto].
      cbn in K. assert (o = Some x) as -> by congruence. destruct i as [i|]; [|contradiction]. cbn in C. eapply py_get_in; eauto. }
  assert (some_count its = some_count sel) as N by (pose proof (chosen_count _ _ _ M (List.length its)) as Q; rewrite firstn_all in Q; rewrite <- (Forall2_len M), firstn_all in Q; exact Q).
  assert (List.length its = List.length sel) as NL by (symmetry; apply (Forall2_len M)).
  assert (exists h, (forall f p, h f (if t then swap p else p) = f p) /\ d = map h d0 /\ c = c0 /\ l = l0) as (h & Hh & -> & -> & ->).
  { destruct t.
    - destruct (map snd (axes_of g)) as [|a [|b r]]; try discriminate. exists (fun f p => f (swap p)). split; [intros; now rewrite swap_swap|]. repeat split; congruence.
    - exists (fun f => f). split; [reflexivity|]. rewrite map_id. repeat split; congruence. }
  split; [congruence|]. split; [rewrite map_length; congruence|]. split; [congruence|]. intros k.
  assert (forall o i, nth_error its k = Some o -> nth_error sel k = Some i -> chosen items i o) as CH.
  { clear - M. intros o i. revert k. induction M as [|i0 o0 l its C M IH]; intros [|k] A B; try discriminate; [|eapply IH; eauto]. cbn in A, B. congruence. }
  split.
  - intros K. destruct (nth_error its k) as [o|] eqn:E; [|apply nth_error_None in E; assert (k < List.length sel) by (apply nth_error_Some; congruence); lia].
    specialize (CH o None eq_refl K). destruct o as [o|]; [contradiction|]. exact (R4 k None E).
  - intros i K. destruct (nth_error its k) as [o|] eqn:E; [|apply nth_error_None in E; assert (k < List.length sel) by (apply nth_error_Some; congruence); lia].
    specialize (CH o (Some i) eq_refl K). destruct o as [[idx lab]|]; [|contradiction]. cbn in CH. destruct (R4 k _ E) as (A & B & f & F & G). rewrite (chosen_count _ _ _ M) in A, B, F.
    exists (some_count (firstn k sel)), (h f), idx, lab. split; [reflexivity|]. split; [exact A|]. split; [rewrite nth_error_map, F; reflexivity|]. split; [exact B|]. split; [exact CH|].
    intros p I. rewrite Hh. now apply G.
Qed.
Theorem shape_axes {P} (g : stack P) ia items sel sh d c l ax : List.length (axes_of g) = 2 -> displaydata g ia items sel = Ok (sh, d, c, l) -> image_axes g ia = Ok ax -> map snd ax = sh.
Proof.
  intros L H A. unfold displaydata in H. destruct (match sel with None => _ | Some _ => _ end) as [its|]; [|discriminate]. cbn [bind] in H. destruct (show _ _ _ _) as [[[? ?] ?]|]; [|discriminate]. cbn [bind] in H.
  unfold image_axes in A. destruct (transpose g ia) as [t|]; [|discriminate]. cbn [bind] in *. destruct (axes_of g) as [|a [|b [|? ?]]]; try discriminate. destruct t; cbn [map swap rev app] in *.
  - assert (ax = [b; a]) as -> by congruence. cbn [map]. congruence.
  - assert (ax = [a; b]) as -> by congruence. cbn [map]. congruence.
Qed.
Theorem axes_order {P} (g : stack P) ia x y : axes_of g = [x; y] -> (fst x = fst ia /\ fst y = snd ia) \/ (fst x = snd ia /\ fst y = fst ia) -> fst ia <> snd ia ->
  exists ax, image_axes g ia = Ok ax /\ map fst ax = [fst ia; snd ia].
Proof.
  intros E H N. unfold image_axes, transpose. rewrite E. unfold axes_of in E. destruct (image_dims g) as [|a r] eqn:D; [discriminate|]. cbn [flat_map] in E.
  assert (forall z, In z (image_dims g) -> z < List.length (gaxes g)) as B by (intros z Z; unfold image_dims, other_dims in Z; apply filter_In in Z as [Z _]; apply in_seq in Z; lia).
  destruct (nth_error (gaxes g) a) as [[nm sz]|] eqn:G; [|apply nth_error_None in G; specialize (B a); rewrite D in B; specialize (B (or_introl eq_refl)); lia].
  cbn [app] in E. assert (x = (nm, sz)) as -> by congruence. cbn [fst] in H. destruct H as [[-> Hy]|[-> Hy]].
  - rewrite String.eqb_refl. cbn [orb negb bind]. eexists. split; [reflexivity|]. cbn. congruence.
  - rewrite String.eqb_refl, Bool.orb_true_r. assert (String.eqb (snd ia) (fst ia) = false) as -> by (apply String.eqb_neq; congruence). cbn [negb bind]. eexists. split; [reflexivity|]. cbn. congruence.
Qed.

Lemma show_total {P} (g : stack P) dst : forall its i, (forall x, In (Some x) its -> selected (fst x) (gshape g) = Ok dst) -> exists r, show g dst its i = Ok r.
Proof.
  induction its as [|[[idx lab]|] its IH]; intros i S0; cbn [show]; [eauto| |].
  - pose proof (S0 (idx, lab) (or_introl eq_refl)) as S1. cbn [fst] in S1. rewrite S1. cbn [bind]. rewrite fits_refl. destruct (IH (S i)) as ([[d c] l] & ->); [intros x I; apply S0; now right|]. cbn [bind]. eauto.
  - destruct (IH i) as ([[d c] l] & ->); [intros x I; apply S0; now right|]. cbn [bind]. eauto.
Qed.
Lemma transpose_total {P} (g : stack P) ia : axes_of g <> [] -> exists t, transpose g ia = Ok t.
Proof.
  intros H. unfold transpose. unfold axes_of in H. destruct (image_dims g) as [|a r] eqn:D; [exfalso; now apply H|].
  assert (forall z, In z (image_dims g) -> z < List.length (gaxes g)) as B by (intros z Z; unfold image_dims, other_dims in Z; apply filter_In in Z as [Z _]; apply in_seq in Z; lia).
  destruct (nth_error (gaxes g) a) as [[nm sz]|] eqn:G; [eauto|]. apply nth_error_None in G. specialize (B a). rewrite D in B. specialize (B (or_introl eq_refl)). lia.
Qed.
Theorem display_total {P} (g : stack P) ia items sel : (forall x, In x items -> selected (fst x) (gshape g) = Ok (map snd (axes_of g))) -> 2 <= List.length (axes_of g) ->
  (forall l i, sel = Some l -> In (Some i) l -> exists x, py_get items i = Ok x) -> exists r, displaydata g ia items sel = Ok r.
Proof.
  intros S0 L V. unfold displaydata.
  assert (exists its, match sel with None => Ok (map Some items) | Some l => mapM (fun i => match i with None => Ok None | Some i => let! x := py_get items i in Ok (Some x) end) l end = Ok its /\ forall x, In (Some x) its -> In x items) as (its & -> & I).
  { destruct sel as [l|].
    - specialize (V l). induction l as [|i l IH]; [exists []; split; [reflexivity|easy]|]. destruct IH as (its & E & I); [intros i0 Q Hi; apply (V i0 eq_refl); now right|]. cbn [mapM]. destruct i as [i|].
      + destruct (V i eq_refl (or_introl eq_refl)) as (x & Hx). rewrite Hx. cbn [bind]. rewrite E. cbn [bind]. eexists. split; [reflexivity|]. intros y [Y|Y]; [|auto]. assert (x = y) as -> by congruence. eapply py_get_in; eauto.
      + cbn [bind]. rewrite E. cbn [bind]. eexists. split; [reflexivity|]. intros y [Y|Y]; [discriminate|auto].
    - eexists. split; [reflexivity|]. intros x X. apply in_map_iff in X as (y & Y & Z). congruence. }
  cbn [bind]. destruct (show_total g (map snd (axes_of g)) its 0) as ([[d c] l] & ->); [intros x X; apply S0; auto|]. cbn [bind].
  destruct (transpose_total g ia) as (t & ->); [intros E; rewrite E in L; cbn in L; lia|]. cbn [bind]. destruct t; [|eauto]. destruct (axes_of g) as [|? [|? ?]]; cbn in L; try lia. cbn [map]. eauto.
Qed.
(* all items of a grid with two stack dimensions *)
Lemma selected_one : forall sh sd i n, nth_error sh sd = Some n -> i < n -> selected (set_nth (repeat Slice (List.length sh)) sd (At (Z.of_nat i))) sh = Ok (remove_at sd sh).
Proof.
  assert (forall sh, selected (repeat Slice (List.length sh)) sh = Ok sh) as A by (induction sh as [|n sh IH]; [reflexivity|]; cbn [List.length repeat selected]; now rewrite IH).
  induction sh as [|m sh IH]; intros [|sd] i n E L; try discriminate; cbn [List.length repeat set_nth selected nth_error] in *.
  - assert (m = n) as -> by congruence. assert (((- Z.of_nat n <=? Z.of_nat i) && (Z.of_nat i <? Z.of_nat n))%Z = true) as -> by (apply andb_true_intro; split; [apply Z.leb_le|apply Z.ltb_lt]; lia). apply A.
  - rewrite (IH sd i n E L). reflexivity.
Qed.
Lemma image_dims_two {P} (g : stack P) a b : gstack_dims g = [a; b] -> a <> b -> a < List.length (gaxes g) -> b < List.length (gaxes g) -> List.length (axes_of g) <= List.length (gaxes g) - 2.
Proof.
  intros E N A B. unfold axes_of, image_dims. rewrite E. set (n := List.length (gaxes g)) in *. set (l := other_dims n [a; b]).
  assert (List.length (flat_map (fun d => match nth_error (gaxes g) d with Some x => [x] | None => [] end) l) <= List.length l) as L1.
  { induction l as [|d l IH]; [reflexivity|]. cbn [flat_map]. rewrite app_length. destruct (nth_error (gaxes g) d); cbn; lia. }
  assert (NoDup (a :: b :: l)) as ND.
  { assert (forall z, In z l -> z <> a /\ z <> b) as X.
    { intros z Z. unfold l, other_dims in Z. apply filter_In in Z as [_ Z]. cbn in Z. apply Bool.negb_true_iff in Z. apply Bool.orb_false_iff in Z as [Z1 Z2]. apply Bool.orb_false_iff in Z2 as [Z2 _]. apply Nat.eqb_neq in Z1, Z2. auto. }
    constructor; [intros [I|I]; [congruence|destruct (X a I); congruence]|]. constructor; [intros I; destruct (X b I); congruence|]. apply NoDup_filter, seq_NoDup. }
  assert (incl (a :: b :: l) (seq 0 n)) as IN.
  { intros z [<-|[<-|Z]]; [apply in_seq; lia|apply in_seq; lia|]. unfold l, other_dims in Z. now apply filter_In in Z as [Z _]. }
  pose proof (NoDup_incl_length ND IN) as L2. rewrite seq_length in L2. cbn in L2. lia.
Qed.
Theorem all_items_fail {P V} (g : stack P) (locate : nat -> V -> result Z) labels minus1 ia b n m r : gstack_dims g = [gstackdim g; b] -> gstackdim g <> b -> b < List.length (gaxes g) ->
  nth_error (gshape g) (gstackdim g) = Some n -> 0 < n -> remove_at (gstackdim g) (gshape g) = m :: r -> m <> 1 ->
  exists items, set_items g locate labels minus1 None = Ok items /\ displaydata g ia items None = Err ValueError.
Proof.
  intros E N B An Hn R M. unfold set_items. unfold gshape in An. rewrite nth_error_map in An. destruct (nth_error (gaxes g) (gstackdim g)) as [[nm n']|] eqn:G; [|discriminate]. cbn in An. assert (n' = n) as -> by congruence.
  eexists. split; [reflexivity|]. unfold displaydata. cbn [bind]. destruct n as [|n]; [lia|]. cbn [seq map show].
  assert (selected (set_nth (repeat Slice (List.length (gaxes g))) (gstackdim g) (At (Z.of_nat 0))) (gshape g) = Ok (m :: r)) as ->.
  { replace (List.length (gaxes g)) with (List.length (gshape g)) by (unfold gshape; apply map_length). rewrite <- R. apply (selected_one _ _ _ (S n)); [|lia]. unfold gshape. rewrite nth_error_map, G. reflexivity. }
  cbn [bind]. assert (fits (m :: r) (map snd (axes_of g)) = false) as ->; [|reflexivity].
  assert (gstackdim g < List.length (gaxes g)) as SD by (apply nth_error_Some; congruence).
  pose proof (image_dims_two g _ _ E N SD B) as L. assert (List.length (m :: r) = List.length (gaxes g) - 1) as LR.
  { rewrite <- R. unfold remove_at, gshape. rewrite app_length, firstn_length, skipn_length, map_length. lia. }
  cbn [fits]. assert (List.length (map snd (axes_of g)) <? List.length (m :: r) = true) as -> by (apply Nat.ltb_lt; rewrite map_length; lia).
  assert (m =? 1 = false) as -> by now apply Nat.eqb_neq. reflexivity.
Qed.
(* the axes names *)
Theorem names_ignored given titles : axisnames given None titles = titles.
Proof. destruct titles. reflexivity. Qed.
(* the spectra *)
Theorem first_file {A} (all : string -> list A) files numbers : List.length (spectra all files numbers Nothing) <= 1.
Proof.
  unfold spectra. cbn [listoflists]. destruct (combine files (listoflists numbers)) as [|[f ns] l]; [cbn; lia|]. cbn [combine flat_map]. replace (combine l []) with (@nil (string * list A * list A)) by (destruct l; reflexivity). cbn [flat_map]. rewrite app_nil_r.
  destruct (match ns with [] => all f | _ => ns end); cbn; lia.
Qed.
Theorem every_file {A} (all : string -> list A) : forall files numbers labels, List.length files = List.length numbers -> List.length files = List.length labels -> numbers <> [] -> labels <> [] -> (forall ns, In ns numbers -> ns <> []) -> (forall ls, In ls labels -> ls <> []) ->
  spectra all files (Nested numbers) (Nested labels) = combine (combine files numbers) labels.
Proof.
  intros files numbers labels H1 H2 N1 N2. unfold spectra. assert (listoflists (Nested numbers) = numbers) as -> by (destruct numbers; [congruence|reflexivity]). assert (listoflists (Nested labels) = labels) as -> by (destruct labels; [congruence|reflexivity]).
  clear N1 N2. revert numbers labels H1 H2. induction files as [|f files IH]; intros [|ns numbers] [|ls labels] H1 H2 B1 B2; try discriminate; [reflexivity|]. cbn [combine flat_map].
  rewrite IH; [|cbn in H1; lia|cbn in H2; lia|intros; apply B1; now right|intros; apply B2; now right]. destruct ns as [|x ns]; [now destruct (B1 [] (or_introl eq_refl))|]. destruct ls as [|y ls]; [now destruct (B2 [] (or_introl eq_refl))|]. reflexivity.
Qed.
(* the default of the second stack axis *)
Local Open Scope Qc_scope.
Theorem default_position x arr : 0 <= x -> (forall y, In y arr -> x <= y) -> AxisModel.locate false (x :: arr) (AxisModel.TOne (AxisModel.NInt (-1))) true = Ok (AxisModel.LOne 0).
Proof.
  intros X M. destruct (AxisProofs.locate_one false (x :: arr) (AxisModel.NInt (-1)) true) as (k & E & F); [discriminate|discriminate|]. rewrite E. f_equal. f_equal.
  apply (AxisProofs.first_nearest_unique (x :: arr) (AxisModel.num_val (AxisModel.NInt (-1)))); [exact F|]. exists x. split; [reflexivity|]. split.
  - intros i y Y. assert (x <= y) as XY.
    { unfold ZList.point in Y. destruct (i <? 0)%Z; [discriminate|]. destruct (Z.to_nat i) as [|j]; cbn in Y; [|apply M; eapply nth_error_In; eauto]. assert (y = x) as -> by congruence. apply Qcle_refl. }
    cbn [AxisModel.num_val]. assert (Qc_of_Z (-1) = - (1)) as -> by (apply Qc_is_canon; vm_compute; reflexivity). clear E F M Y k. unfold Qc_abs. destruct (Qc_leb 0 (x - - (1))) eqn:A, (Qc_leb 0 (y - - (1))) eqn:B; qc_bool; qclra.
  - intros i y I Y. unfold ZList.point in Y. destruct (i <? 0)%Z eqn:Z; [discriminate|]. apply Z.ltb_ge in Z. lia.
Qed.
