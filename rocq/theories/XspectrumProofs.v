(* Proofs about X-ray spectra. *)
From Coq Require Import String.
From Verif Require Import Base QcTac ScalarModel ScalarProofs XspectrumModel XspectrumSpec.
Local Open Scope Qc_scope.

Lemma sum_total l : total l = sum l.
Proof. induction l as [|q l IH]; [reflexivity|]. cbn. change (fold_right Qcplus 0 l) with (total l). now rewrite IH. Qed.
Lemma numbers_asarray v : asarray v = numbers v.
Proof. now destruct v. Qed.
Lemma np_sum_sum v : np_sum v = sum (numbers v).
Proof. unfold np_sum. now rewrite sum_total, numbers_asarray. Qed.
Lemma numbers_scaled m v : numbers (scaled m v) = map (fun q => q * m) (numbers v).
Proof. now destruct v. Qed.
Lemma sum_map_mult m l : sum (map (fun q => q * m) l) = sum l * m.
Proof. induction l as [|q l IH]; cbn; [ring|]. rewrite IH. ring. Qed.
Lemma np_sum_scaled m v : np_sum (scaled m v) = np_sum v * m.
Proof. now rewrite !np_sum_sum, numbers_scaled, sum_map_mult. Qed.
Lemma sum_app l m : sum (l ++ m) = sum l + sum m.
Proof. induction l as [|q l IH]; cbn; [ring|]. rewrite IH. ring. Qed.

(* ---- weights ---- *)
Lemma zip_dot c l : forall m, sum (zip_with Qcmult l (map (fun q => q * c) m)) = dot l m * c.
Proof. induction l as [|a l IH]; intros [|b m]; cbn; try ring. rewrite IH. ring. Qed.
Lemma sum_times v w c : List.length (numbers v) = List.length (numbers w) -> sum (numbers (times v (scaled c w))) = dot (numbers v) (numbers w) * c.
Proof.
  intros H. destruct v as [a|l], w as [b|m]; cbn [numbers] in *.
  - cbn. ring.
  - destruct m as [|b [|? m]]; try discriminate. cbn. ring.
  - destruct l as [|a [|? l]]; try discriminate. cbn. ring.
  - cbn [times scaled numbers]. apply zip_dot.
Qed.
Lemma length_times v w c : List.length (numbers v) = List.length (numbers w) -> List.length (numbers (times v (scaled c w))) = List.length (numbers v).
Proof.
  intros H. destruct v as [a|l], w as [b|m]; cbn [numbers times scaled] in *; rewrite ?map_length; auto.
  revert m H. induction l as [|a l IH]; intros [|b m] H; cbn in *; try discriminate; auto.
Qed.
Lemma nth_times v w c i : List.length (numbers v) = List.length (numbers w) ->
  nth i (numbers (times v (scaled c w))) 0 = nth i (numbers v) 0 * (nth i (numbers w) 0 * c).
Proof.
  intros H. destruct v as [a|l], w as [b|m]; cbn [numbers times scaled] in *.
  - destruct i as [|[|i]]; cbn; ring.
  - destruct m as [|b [|? m]]; try discriminate. destruct i as [|[|i]]; cbn; ring.
  - destruct l as [|a [|? l]]; try discriminate. destruct i as [|[|i]]; cbn; ring.
  - revert m i H. induction l as [|a l IH]; intros [|b m] i H; cbn in H; try discriminate; [destruct i; cbn; ring|].
    destruct i as [|i]; cbn; [ring|]. apply IH. lia.
Qed.
Lemma weights_spec s w : sum (numbers w) <> 0 -> Forall2 (weighted s w) (sp_lines s) (sp_lines (apply_weights (Some w) s)).
Proof.
  intros NZ. cbn [apply_weights with_lines sp_lines]. induction (sp_lines s) as [|p l IH]; cbn [map]; constructor; [|exact IH].
  unfold weighted. rewrite !numbers_asarray. cbv zeta. rewrite np_sum_sum.
  destruct (_ =? _)%nat eqn:E; [apply Nat.eqb_eq in E|apply Nat.eqb_neq in E].
  - split; [reflexivity|]. split; [|intros; contradiction]. intros _. eexists. split; [reflexivity|]. split; [rewrite length_times; assumption|]. split.
    + intros i. rewrite nth_times by assumption. revert NZ. generalize (sum (numbers w)), (nth i (numbers w) 0), (nth i (numbers (evaluated (sp_geom s) (snd p))) 0). intros. field. assumption.
    + rewrite sum_times by assumption. revert NZ. generalize (sum (numbers w)), (dot (numbers (evaluated (sp_geom s) (snd p))) (numbers w)). intros. field. assumption.
  - split; [reflexivity|]. split; [intros; contradiction|reflexivity].
Qed.

(* ---- sorting ---- *)
Lemma insert_by_perm {A} (key : A -> Qc) x l : Permutation (insert_by key x l) (x :: l).
Proof.
  induction l as [|y l IH]; cbn; [apply Permutation_refl|]. destruct (Qc_leb (key x) (key y)); [apply Permutation_refl|].
  eapply Permutation_trans; [apply perm_skip, IH|apply perm_swap].
Qed.
Lemma sort_by_perm {A} (key : A -> Qc) l : Permutation (sort_by key l) l.
Proof. induction l as [|x l IH]; cbn; [constructor|]. eapply Permutation_trans; [apply insert_by_perm|]. now apply perm_skip. Qed.
Lemma sort_by_ascending {A} (key : A -> Qc) l : ascending_by key (sort_by key l).
Proof.
  unfold ascending_by. induction l as [|x l IH]; cbn [sort_by]; [constructor|]. induction (sort_by key l) as [|y m IHm]; cbn [insert_by]; [repeat constructor|].
  inversion IH as [|? ? H1 H2]; subst. rewrite Forall_forall in H2. destruct (Qc_leb (key x) (key y)) eqn:E.
  - apply Qc_leb_le in E. constructor; [assumption|]. constructor; [assumption|]. apply Forall_forall. intros z Hz. eapply Qcle_trans; [exact E|now apply H2].
  - assert (key y <= key x) as E'.
    { destruct (Qclt_le_dec (key x) (key y)) as [L|L]; [|assumption]. exfalso. apply Qclt_le_weak, Qc_leb_le in L. congruence. }
    constructor; [now apply IHm|]. apply Forall_forall. intros z Hz. apply (Permutation_in _ (insert_by_perm key x m)) in Hz. destruct Hz as [<-|Hz]; [assumption|now apply H2].
Qed.
Lemma sort_by_map {A} (key key' : A -> Qc) (f : A -> A) l : (forall x, key (f x) = key x) -> sort_by key (map f l) = map f (sort_by key l).
Proof.
  intros H. induction l as [|x l IH]; [reflexivity|]. cbn [map sort_by]. rewrite IH. generalize (sort_by key l). intros m.
  induction m as [|y m IHm]; [reflexivity|]. cbn [map insert_by]. rewrite !H. destruct (Qc_leb (key x) (key y)); [reflexivity|]. cbn [map]. now rewrite IHm.
Qed.
(* stable: lines with the same key keep their order *)
Lemma insert_by_filter {A} (key : A -> Qc) q x l : filter (fun y => Qc_eqb (key y) q) (insert_by key x l) = filter (fun y => Qc_eqb (key y) q) (x :: l).
Proof.
  induction l as [|y l IH]; [reflexivity|]. cbn [insert_by]. destruct (Qc_leb (key x) (key y)) eqn:E; [reflexivity|]. cbn [filter] in *. rewrite IH.
  destruct (Qc_eqb (key y) q) eqn:Ey; [|reflexivity]. destruct (Qc_eqb (key x) q) eqn:Ex; [|reflexivity].
  apply Qc_eqb_spec in Ey. apply Qc_eqb_spec in Ex. exfalso. assert (Qc_leb (key x) (key y) = true); [|congruence]. apply Qc_leb_le. rewrite Ex, Ey. apply Qcle_refl.
Qed.
Lemma sort_by_stable {A} (key : A -> Qc) q l : filter (fun y => Qc_eqb (key y) q) (sort_by key l) = filter (fun y => Qc_eqb (key y) q) l.
Proof. induction l as [|x l IH]; [reflexivity|]. cbn [sort_by]. rewrite insert_by_filter. cbn [filter]. now rewrite IH. Qed.

Lemma mapM_keyed (f : line * value -> result Qc) l r : mapM (fun p => let! e := f p in Ok (e, p)) l = Ok r -> map snd r = l /\ Forall (fun x => f (snd x) = Ok (fst x)) r.
Proof.
  revert r. induction l as [|p l IH]; intros r H.
  - assert (r = []) as -> by (cbn in H; congruence). split; [reflexivity|constructor].
  - cbn [mapM] in H. destruct (f p) as [e|] eqn:E; [|discriminate]. cbn [bind] in H. destruct (mapM _ l) as [r'|]; [|discriminate]. cbn [bind] in H.
    assert (r = (e, p) :: r') as -> by congruence. destruct (IH r' eq_refl) as [A B]. cbn [map snd]. rewrite A. split; [reflexivity|]. constructor; [assumption|assumption].
Qed.
Lemma items_sorted_spec shift s l : items_sorted shift true s = Ok l ->
  Permutation l (items s) /\ exists keys, mapM (fun p => np_max (energy shift (sp_geom s) (fst p))) l = Ok keys /\ StronglySorted Qcle keys.
Proof.
  cbn [items_sorted]. destruct (mapM _ (items s)) as [r|] eqn:E; [|discriminate]. cbn [bind]. intros H. assert (l = map snd (sort_by fst r)) as -> by congruence.
  destruct (mapM_keyed _ _ _ E) as [A B]. cbv beta in B. split.
  - rewrite <- A. apply Permutation_map, sort_by_perm.
  - exists (map fst (sort_by fst r)). split.
    + assert (Forall (fun x => np_max (energy shift (sp_geom s) (fst (snd x))) = Ok (fst x)) (sort_by fst r)) as B'.
      { rewrite Forall_forall in *. intros x Hx. apply B. now apply (Permutation_in _ (sort_by_perm fst r)). }
      clear -B'. induction B' as [|x m Hx _ IH]; [reflexivity|]. cbn [map mapM]. rewrite Hx. cbn [bind]. now rewrite IH.
    + pose proof (sort_by_ascending fst r) as S. unfold ascending_by in S. clear -S. induction S as [|x m S IH F]; [constructor|]. cbn [map]. constructor; [assumption|].
      rewrite Forall_forall in *. intros q Hq. apply in_map_iff in Hq. destruct Hq as (y & <- & Hy). now apply F.
Qed.

(* ---- sum_sources ---- *)
Definition summed (p : line * value) : line * value := match k_kind (fst p) with Fluo => (fst p, Scalar (np_sum (snd p))) | _ => p end.
Lemma items_sum s : items (sum_sources s) = map summed (items s).
Proof.
  unfold items, sum_sources. cbn [with_lines sp_lines sp_geom]. rewrite !map_map. apply map_ext. intros [k e]. unfold summed. cbn [fst snd].
  destruct (k_kind k); reflexivity.
Qed.
Lemma summed_fst p : fst (summed p) = fst p.
Proof. unfold summed. now destruct (k_kind (fst p)). Qed.
Lemma items_sorted_sum shift sort s : items_sorted shift sort (sum_sources s) = let! l := items_sorted shift sort s in Ok (map summed l).
Proof.
  unfold items_sorted. rewrite items_sum. destruct sort; [|reflexivity]. change (sp_geom (sum_sources s)) with (sp_geom s).
  assert (forall l, mapM (fun p => let! e := np_max (energy shift (sp_geom s) (fst p)) in Ok (e, p)) (map summed l) =
    let! r := mapM (fun p => let! e := np_max (energy shift (sp_geom s) (fst p)) in Ok (e, p)) l in Ok (map (fun x => (fst x, summed (snd x))) r)) as M.
  { induction l as [|p l IH]; [reflexivity|]. cbn [map mapM]. rewrite summed_fst, IH. destruct (np_max _); [|reflexivity]. cbn [bind]. destruct (mapM _ l); reflexivity. }
  rewrite M. destruct (mapM _ (items s)) as [r|]; [|reflexivity]. cbn [bind]. f_equal. rewrite (sort_by_map fst fst) by reflexivity. now rewrite !map_map.
Qed.
Lemma split_summed str m p : split_line str (fst (summed p), scaled m (snd (summed p))) = split_line str (fst p, scaled m (snd p)).
Proof.
  unfold split_line. cbn [fst snd]. rewrite summed_fst. unfold summed. destruct (k_kind (fst p)) eqn:E; try reflexivity. cbn [snd].
  now rewrite !np_sum_scaled, (np_sum_sum (Scalar _)); cbn [numbers sum]; rewrite Qcplus_0_r.
Qed.
Lemma lines_sum shift four_pi str sort s : lines shift four_pi str sort (sum_sources s) = lines shift four_pi str sort s.
Proof.
  unfold lines, items_converted. change (line_multiplier four_pi true (sum_sources s)) with (line_multiplier four_pi true s).
  destruct (line_multiplier four_pi true s) as [m|]; [|reflexivity]. cbn [bind]. rewrite items_sorted_sum. destruct (items_sorted shift sort s) as [l|]; [|reflexivity]. cbn [bind].
  f_equal. rewrite map_map. induction l as [|p l IH]; [reflexivity|]. cbn [map flat_map]. rewrite IH. f_equal. apply split_summed.
Qed.

(* ---- units ---- *)
Lemma probabilities_cross shift four_pi s d : sp_type s = Cross -> sp_density s = Some d ->
  probabilities shift four_pi s = Ok (map (fun p => (fst p, scaled (d / four_pi) (snd p))) (items s)).
Proof. intros T D. unfold probabilities, items_converted, line_multiplier. now rewrite T, D. Qed.
Lemma probabilities_diff shift four_pi s d : sp_type s = DiffCross -> sp_density s = Some d ->
  probabilities shift four_pi s = Ok (map (fun p => (fst p, scaled d (snd p))) (items s)).
Proof. intros T D. unfold probabilities, items_converted, line_multiplier. now rewrite T, D. Qed.
Lemma probabilities_density shift four_pi s : (sp_type s = Cross \/ sp_type s = DiffCross) -> sp_density s = None -> probabilities shift four_pi s = Err TypeError.
Proof. intros T D. unfold probabilities, items_converted, line_multiplier. rewrite D. destruct T as [-> | ->]; reflexivity. Qed.
Lemma probabilities_type shift four_pi s : sp_type s <> Cross -> sp_type s <> DiffCross -> probabilities shift four_pi s = Err RuntimeError.
Proof. intros A B. unfold probabilities. destruct (sp_type s); congruence. Qed.
Lemma scaled_one v : scaled 1 v = v.
Proof. destruct v as [q|l]; cbn; f_equal; [ring|]. induction l as [|q l IH]; [reflexivity|]. cbn. f_equal; [ring|assumption]. Qed.
Lemma rates_rate shift four_pi s : sp_type s = Rate -> rates shift four_pi s = Ok (items s).
Proof.
  intros T. unfold rates, items_converted, line_multiplier. rewrite T. cbn. f_equal. rewrite map_ext with (g := fun p => p); [apply map_id|].
  intros [k v]. cbn. now rewrite scaled_one.
Qed.
Lemma rates_type shift four_pi s : sp_type s <> Rate -> rates shift four_pi s = Err RuntimeError.
Proof. intros A. unfold rates. destruct (sp_type s); congruence. Qed.

(* ---- lines ---- *)
Lemma sum_snd_combine {A} (f : A * Qc -> line * Qc) (l : list A) m : (forall x, snd (f x) = snd x) -> List.length l = List.length m -> sum (map snd (map f (combine l m))) = sum m.
Proof.
  intros H. revert m. induction l as [|a l IH]; intros [|b m] L; cbn in *; try discriminate; [reflexivity|]. rewrite H, IH by lia. reflexivity.
Qed.
Lemma energy_none shift k : energy shift no_geom k = k_energy k.
Proof. unfold energy. cbn. now destruct (k_kind k). Qed.
Lemma split_total str p : matched p -> sum (map snd (split_line str p)) = sum (numbers (snd p)).
Proof.
  intros M. unfold split_line. rewrite energy_none. destruct M as [M|M].
  - rewrite M. cbn. rewrite np_sum_sum. ring.
  - rewrite !numbers_asarray. destruct (k_kind (fst p)); [cbn; rewrite np_sum_sum; ring|..]; (apply sum_snd_combine; [reflexivity|exact M]).
Qed.
Lemma sum_perm l l' : Permutation l l' -> sum l = sum l'.
Proof. intros H. induction H; cbn; [reflexivity|congruence|ring|congruence]. Qed.
Lemma flat_total str l : Forall matched l -> sum (map snd (flat_map (split_line str) l)) = sum (map (fun p => sum (numbers (snd p))) l).
Proof.
  induction 1 as [|p l M _ IH]; [reflexivity|]. cbn [flat_map]. rewrite map_app, sum_app, IH, (split_total _ _ M). reflexivity.
Qed.
Lemma lines_total shift four_pi str sort s l m : line_multiplier four_pi true s = Ok m -> Forall matched (items s) ->
  lines shift four_pi str sort s = Ok l -> sum (map snd l) = sum (map (fun p => sum (numbers (snd p))) (items s)) * m.
Proof.
  intros Hm M. unfold lines, items_converted. rewrite Hm. cbn [bind]. destruct (items_sorted shift sort s) as [r|] eqn:E; [|discriminate]. cbn [bind]. intros H.
  assert (l = flat_map (split_line str) (map (fun p => (fst p, scaled m (snd p))) r)) as -> by congruence.
  assert (Permutation r (items s)) as P.
  { destruct sort; [now apply items_sorted_spec in E|]. cbn in E. assert (r = items s) as -> by congruence. apply Permutation_refl. }
  rewrite flat_total.
  - rewrite map_map. rewrite (map_ext _ (fun p => sum (numbers (snd p)) * m)) by (intros [k v]; cbn [fst snd]; now rewrite numbers_scaled, sum_map_mult).
    rewrite <- (map_map (fun p => sum (numbers (snd p))) (fun q => q * m)), sum_map_mult. f_equal. apply sum_perm. now apply Permutation_map.
  - apply Forall_forall. intros q Hq. apply in_map_iff in Hq. destruct Hq as (p & <- & Hp). rewrite Forall_forall in M. specialize (M p (Permutation_in _ P Hp)).
    unfold matched in *. cbn [fst snd]. now rewrite numbers_scaled, map_length.
Qed.
Lemma power_type shift four_pi str flux s : sp_type s <> Rate -> power shift four_pi str flux s = Err RuntimeError.
Proof. intros A. unfold power. destruct (sp_type s); congruence. Qed.
Lemma power_rate shift four_pi str flux s l : sp_type s = Rate -> spectrum_ shift four_pi str false s = Ok (map (fun p => (Some (fst p), snd p)) l) ->
  power shift four_pi str flux s = Ok (sum (map (fun p => fst p * snd p) l) * flux).
Proof.
  intros T E. unfold power. rewrite T, E. cbn [bind].
  assert (mapM (fun p : option Qc * Qc => match fst p with Some e => Ok (e * snd p) | None => Err TypeError end) (map (fun p => (Some (fst p), snd p)) l) = Ok (map (fun p => fst p * snd p) l)) as ->.
  { clear. induction l as [|p l IH]; [reflexivity|]. cbn [map mapM fst snd bind]. now rewrite IH. }
  cbn [bind]. now rewrite sum_total.
Qed.

(* ---- Compton ---- *)
Lemma compton_wavelength m e : 0 < e -> 0 <= m -> / compton m e = / e + m.
Proof.
  intros He Hm. unfold compton. assert (1 + e * m <> 0) as N by (intros X; assert (0 <= e * m) by qcnra; qclra).
  assert (e <> 0) by (intros ->; qclra). field. split; assumption.
Qed.
Lemma compton_bounds m e : 0 < e -> 0 < m -> 0 < compton m e /\ compton m e < e.
Proof.
  intros He Hm. unfold compton. assert (0 < e * m) as P by qcnra. set (d := 1 + e * m). assert (1 < d) as D by (unfold d; qclra). clearbody d.
  assert (e / d * d = e) as Q by (field; intros ->; qclra). revert Q. generalize (e / d). intros x Q. split; qcnra.
Qed.

(* ---- counter ---- *)
Lemma pair_eqb_spec a b : pair_eqb a b = true <-> a = b.
Proof.
  destruct a as [[x|] q], b as [[y|] p]; unfold pair_eqb; cbn [fst snd]; rewrite andb_true_iff, ?Qc_eqb_spec.
  - split; [intros [-> ->]; reflexivity|intros H; split; congruence].
  - split; [intros [H _]; discriminate|discriminate].
  - split; [intros [H _]; discriminate|discriminate].
  - split; [intros [_ ->]; reflexivity|intros H; split; congruence].
Qed.
Definition occurrences (p : option Qc * Qc) (l : list (option Qc * Qc)) : nat := List.length (filter (pair_eqb p) l).
Lemma lookup_assign_pair {V} p p' (v : V) d : lookup pair_eqb p (assign pair_eqb p' v d) = if pair_eqb p p' then Some v else lookup pair_eqb p d.
Proof.
  induction d as [|[a b] d IH]; cbn; [now destruct (pair_eqb p p')|]. destruct (pair_eqb p' a) eqn:E; cbn.
  - apply pair_eqb_spec in E. subst. now destruct (pair_eqb p a).
  - rewrite IH. destruct (pair_eqb p a) eqn:E'; [|reflexivity]. apply pair_eqb_spec in E'. subst. destruct (pair_eqb a p') eqn:X; [|reflexivity].
    apply pair_eqb_spec in X. subst. assert (pair_eqb p' p' = true) by now apply pair_eqb_spec. congruence.
Qed.
Lemma counter_spec l p : lookup pair_eqb p (counter l) = match occurrences p l with O => None | n => Some n end.
Proof.
  unfold counter. assert (forall l d, (forall p, lookup pair_eqb p d <> Some O) ->
    lookup pair_eqb p (fold_left (fun d p => assign pair_eqb p (match lookup pair_eqb p d with Some n => S n | None => 1%nat end) d) l d) =
    match (match lookup pair_eqb p d with Some n => n | None => O end + occurrences p l)%nat with O => None | n => Some n end) as H.
  { clear l. induction l as [|q l IH]; intros d N; cbn [fold_left].
    - unfold occurrences. cbn. rewrite Nat.add_0_r. specialize (N p). destruct (lookup pair_eqb p d) as [[|n]|]; [congruence|reflexivity|reflexivity].
    - rewrite IH.
      + rewrite lookup_assign_pair. unfold occurrences. cbn [filter]. destruct (pair_eqb p q) eqn:E.
        * apply pair_eqb_spec in E. subst. cbn [List.length]. destruct (lookup pair_eqb q d) as [n|]; cbn; [now rewrite Nat.add_succ_r|reflexivity].
        * reflexivity.
      + intros p'. rewrite lookup_assign_pair. destruct (pair_eqb p' q); [destruct (lookup pair_eqb q d); discriminate|apply N]. }
  rewrite H by discriminate. reflexivity.
Qed.

(* ---- energysource ---- *)
Lemma energysource_never s v : energysource s <> Ok v.
Proof. unfold energysource. destruct (getitem s _); discriminate. Qed.

(* ---- channels ---- *)
Lemma channel_near s e : 0 < mcagain s -> mcazero s - mcagain s * half <= e ->
  channel_energy s (energytochannel s e) - mcagain s * half <= e /\ e <= channel_energy s (energytochannel s e) + mcagain s * half.
Proof.
  intros G L. unfold energytochannel, channel_energy. set (x := (e - mcazero s) / mcagain s). destruct (rint_bounds x) as [A B].
  assert (e = mcazero s + mcagain s * x) as Ex by (unfold x; field; intros Q; rewrite Q in G; qclra).
  pose proof half_half as Hh.
  assert (- half <= x) as X.
  { clearbody x. revert G L Ex. generalize (mcagain s), (mcazero s), half. intros g z h G L Ex. subst e. assert (0 <= g * (x + h)) by qclra. qcnra. }
  destruct (Z.max_spec (rint x) 0) as [[M ->]|[M ->]].
  - (* rint x < 0 but x >= -1/2: then x = -1/2 would round to 0 *)
    assert (Qc_of_Z (rint x) <= Qc_of_Z (-1)) as N by (apply (proj2 (Qc_of_Z_le _ _)); lia). change (Qc_of_Z (-1)) with (- (1)) in N.
    clearbody x. change (Qc_of_Z 0) with 0. assert (x = - half) as Xh by (revert Hh A B X N; generalize half, (Qc_of_Z (rint x)); intros; qclra).
    subst e. rewrite Xh. assert (0 < half) as H0 by (generalize dependent half; intros; qclra). revert H0 G. generalize (mcagain s), (mcazero s), half. intros g z h H0 G.
    assert (0 < g * h) by qcnra. split; qclra.
  - clearbody x. subst e. revert G A B. generalize (mcagain s), (mcazero s), half, (Qc_of_Z (rint x)). intros g z h c G A B.
    assert (0 <= g * (c - (x - h))) by qcnra. assert (0 <= g * (x + h - c)) by qcnra. split; qclra.
Qed.
Lemma channel_low s e : 0 < mcagain s -> e <= mcazero s + mcagain s * half -> energytochannel s e = 0%Z.
Proof.
  intros G L. unfold energytochannel. set (x := (e - mcazero s) / mcagain s).
  assert (e = mcazero s + mcagain s * x) as Ex by (unfold x; field; intros Q; rewrite Q in G; qclra). clearbody x.
  assert (x <= half) as X by (revert G L Ex; generalize (mcagain s), (mcazero s), half; intros g z h G L Ex; subst e; assert (0 <= g * (h - x)) by qclra; qcnra).
  apply rint_mono in X. assert (rint half = 0%Z) as Rh by (vm_compute; reflexivity). rewrite Rh in X. lia.
Qed.
Lemma channel_back s c : mcagain s <> 0 -> (0 <= c)%Z -> energytochannel s (channel_energy s c) = c.
Proof.
  intros G H. unfold energytochannel, channel_energy.
  assert ((mcazero s + mcagain s * Qc_of_Z c - mcazero s) / mcagain s = Qc_of_Z c) as -> by (revert G; generalize (mcagain s), (mcazero s), (Qc_of_Z c); intros; field; assumption).
  rewrite rint_of_Z. lia.
Qed.
Lemma channel_mono s e e' : 0 < mcagain s -> e <= e' -> (energytochannel s e <= energytochannel s e')%Z.
Proof.
  intros G H. unfold energytochannel. apply Z.max_le_compat_r, rint_mono. set (g := mcagain s) in *. set (z := mcazero s). clearbody g z.
  assert ((e' - z) / g * g = e' - z) as A by (field; intros ->; qclra). assert ((e - z) / g * g = e - z) as B by (field; intros ->; qclra).
  revert A B. generalize ((e' - z) / g), ((e - z) / g). intros x y A B.
  destruct (Qclt_le_dec x y) as [L|L]; [|assumption]. exfalso. assert (0 < g * (y - x)) by qcnra. qclra.
Qed.
Lemma channels_spec s a b l : sp_xlim s = Some (a, b) -> mcachannels s = Ok l ->
  forall c, In c l <-> (energytochannel s a <= c <= energytochannel s b)%Z.
Proof.
  intros X. unfold mcachannels, channellimits. rewrite X. cbn [bind]. intros H c.
  assert (l = map (fun i => (energytochannel s a + Z.of_nat i)%Z) (seq 0 (Z.to_nat (energytochannel s b + 1 - energytochannel s a)))) as -> by congruence.
  rewrite in_map_iff. split.
  - intros (i & <- & Hi). apply in_seq in Hi. lia.
  - intros Q. exists (Z.to_nat (c - energytochannel s a)). split; [lia|]. apply in_seq. lia.
Qed.
Lemma channels_nolimits s : sp_xlim s = None -> mcachannels s = Err TypeError /\ energylimits s = Err TypeError /\ mcaenergies s = Err TypeError.
Proof. intros X. unfold mcaenergies, mcachannels, energylimits, channellimits. rewrite X. auto. Qed.
Lemma energies_spec s l : mcachannels s = Ok l -> mcaenergies s = Ok (map (fun c => mcazero s + mcagain s * Qc_of_Z c) l).
Proof. intros E. unfold mcaenergies. now rewrite E. Qed.

(* ---- groups of lines ---- *)
Lemma same_spec a b : same a b = true <-> k_repr a = k_repr b.
Proof. unfold same. apply String.eqb_eq. Qed.
Lemma assign_same_fresh {V} (k : line) (v : V) d : ~ In (k_repr k) (map (fun p => k_repr (fst p)) d) -> assign same k v d = d ++ [(k, v)].
Proof.
  induction d as [|[a b] d IH]; cbn; intros H; [reflexivity|]. destruct (same k a) eqn:E; [apply same_spec in E; exfalso; apply H; left; congruence|]. f_equal. apply IH. tauto.
Qed.
Lemma lookup_assign_str {V} k k' (v : V) d : lookup String.eqb k (assign String.eqb k' v d) = if String.eqb k k' then Some v else lookup String.eqb k d.
Proof.
  induction d as [|[a b] d IH]; cbn; [now destruct (String.eqb k k')|]. destruct (String.eqb k' a) eqn:E; cbn.
  - apply String.eqb_eq in E. subst. now destruct (String.eqb k a).
  - rewrite IH. destruct (String.eqb k a) eqn:E'; [|reflexivity]. apply String.eqb_eq in E'. subst. now rewrite String.eqb_sym, E.
Qed.
Lemma of_group_app g l m : of_group g (l ++ m) = of_group g l ++ of_group g m.
Proof. unfold of_group. rewrite filter_app. apply map_app. Qed.
Lemma keys_assign {V} k (v : V) d : map fst (assign String.eqb k v d) = if mem String.eqb k d then map fst d else map fst d ++ [k].
Proof.
  unfold mem. induction d as [|[a b] d IH]; [reflexivity|]. cbn. destruct (String.eqb k a) eqn:E; [reflexivity|]. cbn. rewrite IH. now destruct (lookup String.eqb k d).
Qed.
Lemma lookup_str_in {V} (k : string) (d : list (string * V)) v : lookup String.eqb k d = Some v -> In (k, v) d.
Proof.
  induction d as [|[a b] d IH]; cbn; [discriminate|]. destruct (String.eqb k a) eqn:E.
  - apply String.eqb_eq in E. subst. intros H. left. congruence.
  - intros H. right. now apply IH.
Qed.
Lemma lookup_str_iff {V} (k : string) (d : list (string * V)) v : NoDup (map fst d) -> lookup String.eqb k d = Some v <-> In (k, v) d.
Proof.
  intros ND. split; [apply lookup_str_in|]. induction d as [|[a b] d IH]; cbn; [contradiction|]. cbn in ND. inversion ND; subst. destruct (String.eqb k a) eqn:E.
  - apply String.eqb_eq in E. subst. intros [H|H]; [congruence|]. exfalso. apply H1, in_map_iff. now exists (a, v).
  - apply String.eqb_neq in E. intros [H|H]; [congruence|now apply IH].
Qed.
Lemma lookup_mem_keys {V} (k : string) (d : list (string * V)) : mem String.eqb k d = true <-> In k (map fst d).
Proof.
  unfold mem. induction d as [|[a b] d IH]; cbn; [split; [discriminate|contradiction]|]. destruct (String.eqb k a) eqn:E.
  - apply String.eqb_eq in E. subst. split; auto.
  - apply String.eqb_neq in E. rewrite IH. split; [now right|]. intros [H|H]; [congruence|assumption].
Qed.
Lemma groups_spec l : distinct_lines l ->
  NoDup (map fst (fold_left add_group l [])) /\
  forall g, lookup String.eqb g (fold_left add_group l []) = match of_group g l with [] => None | d => Some d end.
Proof.
  unfold distinct_lines. induction l as [|p l IH] using rev_ind; intros ND; [split; [constructor|reflexivity]|].
  rewrite map_app in ND. cbn [map] in ND. assert (NoDup (map (fun p => k_repr (fst p)) l)) as ND1 by (apply NoDup_remove_1 in ND; now rewrite app_nil_r in ND).
  assert (~ In (k_repr (fst p)) (map (fun p => k_repr (fst p)) l)) as F by (apply NoDup_remove_2 in ND; now rewrite app_nil_r in ND).
  destruct (IH ND1) as [NK L]. rewrite fold_left_app. cbn [fold_left]. set (ret := fold_left add_group l []) in *. clearbody ret.
  set (g0 := k_group (fst p)). unfold add_group. fold g0.
  assert (match lookup String.eqb g0 ret with Some d => d | None => [] end = of_group g0 l) as -> by (rewrite L; now destruct (of_group g0 l)).
  assert (assign same (fst p) (grouped_value p) (of_group g0 l) = of_group g0 (l ++ [p])) as ->.
  { rewrite assign_same_fresh.
    - rewrite of_group_app. f_equal. unfold of_group. cbn [filter]. unfold g0. rewrite String.eqb_refl. reflexivity.
    - intros Q. apply F. unfold of_group in Q. rewrite map_map in Q. cbn [fst] in Q. apply in_map_iff in Q. destruct Q as (q & Eq & Hq). apply filter_In in Hq.
      apply in_map_iff. exists q. tauto. }
  split.
  - rewrite keys_assign. destruct (mem String.eqb g0 ret) eqn:M; [assumption|]. apply (Permutation_NoDup (Permutation_cons_append _ _)). constructor; [|assumption].
    intros Q. apply lookup_mem_keys in Q. congruence.
  - intros g. rewrite lookup_assign_str. destruct (String.eqb g g0) eqn:E.
    + apply String.eqb_eq in E. subst g. destruct (of_group g0 (l ++ [p])) eqn:X; [|reflexivity]. exfalso. rewrite of_group_app in X. unfold of_group at 2 in X. cbn [filter] in X.
      unfold g0 in X. rewrite String.eqb_refl in X. cbn [map] in X. destruct (of_group (k_group (fst p)) l); discriminate.
    + rewrite L, of_group_app. unfold of_group at 3. cbn [filter]. fold g0. rewrite String.eqb_sym, E. cbn [map]. now rewrite app_nil_r.
Qed.
Lemma linegroups_spec shift four_pi convert s ret : linegroups shift four_pi convert s = Ok ret ->
  exists l, items_converted shift four_pi convert false s = Ok l /\ (distinct_lines l -> NoDup (map fst ret) /\
    (forall g d, In (g, d) ret -> d <> [] /\ d = of_group g l) /\ (forall p, In p l -> exists d, In (k_group (fst p), d) ret)).
Proof.
  unfold linegroups. destruct (items_converted shift four_pi convert false s) as [l|]; [|discriminate]. cbn [bind]. intros H.
  assert (ret = fold_left add_group l []) as -> by congruence. exists l. split; [reflexivity|]. intros D. destruct (groups_spec l D) as [NK L]. split; [assumption|]. split.
  - intros g d I. apply (lookup_str_iff g _ d NK) in I. rewrite L in I. destruct (of_group g l) eqn:E; [discriminate|]. assert (d = p :: l0) as -> by congruence. split; [discriminate|reflexivity].
  - intros p I. destruct (of_group (k_group (fst p)) l) as [|q d] eqn:E.
    + exfalso. assert (In (fst p, grouped_value p) []) as []. rewrite <- E. unfold of_group. apply in_map_iff. exists p. split; [reflexivity|]. apply filter_In. split; [assumption|apply String.eqb_refl].
    + exists (q :: d). apply (lookup_str_iff _ _ _ NK). now rewrite L, E.
Qed.

(* ---- description of the peaks ---- *)
Lemma argmax_from_spec l : forall best q i pre, List.length pre = i -> (best < i)%nat -> nth_error pre best = Some q ->
  Forall (fun x => x < q) (firstn best pre) -> Forall (fun x => x <= q) (skipn (S best) pre) ->
  exists a x b, pre ++ l = a ++ x :: b /\ List.length a = argmax_from best q i l /\ Forall (fun y => y < x) a /\ Forall (fun y => y <= x) b.
Proof.
  induction l as [|x l IH]; intros best q i pre Li Lb N F1 F2; cbn [argmax_from].
  - rewrite app_nil_r. exists (firstn best pre), q, (skipn (S best) pre). split; [|split; [rewrite firstn_length; lia|split; assumption]].
    clear -N. revert best N. induction pre as [|y pre IH]; intros [|best] N; cbn in *; try discriminate; [congruence|]. f_equal. now apply IH.
  - replace (pre ++ x :: l) with ((pre ++ [x]) ++ l) by (now rewrite <- app_assoc). destruct (Qc_ltb q x) eqn:E.
    + apply Qc_ltb_lt in E. apply IH; [rewrite app_length; cbn; lia|lia| | |].
      * rewrite nth_error_app2 by lia. replace (i - List.length pre)%nat with O by lia. reflexivity.
      * rewrite firstn_app. replace (i - List.length pre)%nat with O by lia. cbn [firstn]. rewrite app_nil_r, firstn_all2 by lia.
        assert (pre = firstn best pre ++ q :: skipn (S best) pre) as -> by (clear -N; revert best N; induction pre as [|y pre IH]; intros [|best] N; cbn in *; try discriminate; [congruence|]; f_equal; now apply IH).
        apply Forall_app. split; [|constructor; [assumption|]].
        -- rewrite Forall_forall in *. intros y Hy. eapply Qclt_trans; [now apply F1|assumption].
        -- rewrite Forall_forall in *. intros y Hy. eapply Qcle_lt_trans; [now apply F2|assumption].
      * rewrite skipn_all2 by (rewrite app_length; cbn; lia). constructor.
    + assert (x <= q) as E' by (destruct (Qclt_le_dec q x) as [L|L]; [apply Qc_ltb_lt in L; congruence|assumption]).
      apply IH; [rewrite app_length; cbn; lia|lia| | |].
      * rewrite nth_error_app1 by lia. assumption.
      * rewrite firstn_app. replace (best - List.length pre)%nat with O by lia. cbn [firstn]. now rewrite app_nil_r.
      * rewrite skipn_app. apply Forall_app. split; [assumption|]. replace (S best - List.length pre)%nat with O by lia. cbn. now constructor.
Qed.
Lemma argmax_spec l i : argmax l = Ok i -> exists a x b, l = a ++ x :: b /\ List.length a = i /\ Forall (fun y => y < x) a /\ Forall (fun y => y <= x) b.
Proof.
  unfold argmax. destruct l as [|q l]; [discriminate|]. intros H. assert (i = argmax_from 0 q 1 l) as -> by congruence.
  apply (argmax_from_spec l 0 q 1 [q]); [reflexivity|lia|reflexivity|constructor|constructor].
Qed.
Definition labelled (group : string) (r : list info) : Prop :=
  exists a x b, r = a ++ x :: b /\ i_label x = Some group /\ Forall (fun y => i_label y = None) (a ++ b) /\ Forall (fun y => i_area y <= i_area x) (a ++ b).
Lemma enum_infos shift g group imax : forall (zs : list ((string * line) * Qc)) i r,
  fold_right (fun x r =>
        match scalar (energy shift g (snd (fst (snd x)))), r with
        | Some e, Some l => Some ({| i_name := fst (fst (snd x)); i_group := group; i_label := if (fst x =? imax)%nat then Some group else None; i_energy := e; i_area := snd (snd x) |} :: l)
        | _, _ => None
        end) (Some []) (enumerate i zs) = Some r ->
  map i_name r = map (fun z => fst (fst z)) zs /\ map i_area r = map snd zs /\ Forall (fun y => i_group y = group) r /\
  (forall j y, nth_error r j = Some y -> i_label y = if (i + j =? imax)%nat then Some group else None).
Proof.
  induction zs as [|z zs IH]; intros i r H.
  - assert (r = []) as -> by (cbn in H; congruence). repeat split; [constructor|]. intros [|j] y X; discriminate.
  - cbn [enumerate fold_right fst snd] in H. destruct (scalar _) as [e|]; [|discriminate]. destruct (fold_right _ _ (enumerate (S i) zs)) as [r'|] eqn:E; [|discriminate].
    destruct (IH (S i) r' E) as (A & B & C & D).
    assert (r = {| i_name := fst (fst z); i_group := group; i_label := if (i =? imax)%nat then Some group else None; i_energy := e; i_area := snd z |} :: r') as -> by congruence.
    cbn [map i_name i_area]. rewrite A, B. repeat split; [constructor; [reflexivity|assumption]|]. intros [|j] y X; cbn in X.
    + assert (y = {| i_name := fst (fst z); i_group := group; i_label := if (i =? imax)%nat then Some group else None; i_energy := e; i_area := snd z |}) as -> by congruence. cbn. now rewrite Nat.add_0_r.
    + rewrite (D j y X). now rewrite Nat.add_succ_r.
Qed.
Lemma map_split_app {A B} (f : A -> B) l a x b : map f l = a ++ x :: b -> exists a' x' b', l = a' ++ x' :: b' /\ map f a' = a /\ f x' = x /\ map f b' = b.
Proof.
  revert l. induction a as [|y a IH]; intros [|z l] H; cbn in H; try discriminate.
  - exists [], z, l. assert (f z = x /\ map f l = b) as [-> ->] by (split; congruence). auto.
  - assert (f z = y /\ map f l = a ++ x :: b) as [E1 E2] by (split; congruence). destruct (IH l E2) as (a' & x' & b' & -> & Ma & Mx & Mb). exists (z :: a'), x', b'. cbn. rewrite E1, Ma. auto.
Qed.
Lemma combine_fst {A B} (l : list A) (m : list B) : List.length l = List.length m -> map fst (combine l m) = l /\ map snd (combine l m) = m.
Proof. revert m. induction l as [|a l IH]; intros [|b m] H; cbn in *; try discriminate; [auto|]. destruct (IH m) as [-> ->]; [lia|]. auto. Qed.
Lemma describe_spec shift g group ls areas r : describe shift g group ls areas = Ok (Some r) -> List.length ls = List.length areas ->
  map i_name r = map fst ls /\ map i_area r = areas /\ Forall (fun y => i_group y = group) r /\ labelled group r.
Proof.
  unfold describe. destruct (argmax areas) as [imax|] eqn:M; [|discriminate]. cbn [bind]. intros H L. assert (forall (A : Type) (a b : A), Ok a = Ok b -> a = b) as OI by (intros; congruence).
  apply OI in H. destruct (enum_infos shift g group imax _ _ _ H) as (A & B & C & D). destruct (combine_fst ls areas L) as [E1 E2].
  rewrite E2 in B. rewrite <- (map_map fst fst), E1 in A. split; [assumption|]. split; [assumption|]. split; [assumption|].
  destruct (argmax_spec _ _ M) as (a & x & b & Ea & La & Fa & Fb). rewrite Ea in B. destruct (map_split_app _ _ _ _ _ B) as (a' & x' & b' & -> & Ma & Mx & Mb).
  exists a', x', b'. split; [reflexivity|]. assert (List.length a' = imax) as La' by (rewrite <- La, <- Ma, map_length; reflexivity). split; [|split].
  - rewrite (D (List.length a') x'); [rewrite La'; cbn; now rewrite Nat.eqb_refl|]. rewrite nth_error_app2 by lia. now rewrite Nat.sub_diag.
  - apply Forall_app. split; apply Forall_forall; intros y Hy; apply In_nth_error in Hy; destruct Hy as [j Hj].
    + assert (j < List.length a')%nat as Lj by (apply nth_error_Some; congruence). rewrite (D j y); [|rewrite nth_error_app1 by lia; assumption].
      cbn. destruct (j =? imax)%nat eqn:Q; [apply Nat.eqb_eq in Q; lia|reflexivity].
    + rewrite (D (List.length a' + S j)%nat y); [|rewrite nth_error_app2 by lia; replace (List.length a' + S j - List.length a')%nat with (S j) by lia; assumption].
      cbn. destruct (_ =? imax)%nat eqn:Q; [apply Nat.eqb_eq in Q; lia|reflexivity].
  - apply Forall_app. rewrite Mx. rewrite <- Ma in Fa. rewrite <- Mb in Fb. split; apply Forall_forall; intros y Hy; rewrite Forall_forall in Fa, Fb.
    + apply Qclt_le_weak, Fa. now apply in_map.
    + apply Fb. now apply in_map.
Qed.

Lemma all_scalar_spec l r : all_scalar l = Some r -> l = map Scalar r.
Proof.
  revert r. induction l as [|v l IH]; intros r H; cbn in H; [assert (r = []) as -> by congruence; reflexivity|]. destruct v as [q|]; [|discriminate].
  destruct (all_scalar l) as [r'|]; [|discriminate]. assert (r = q :: r') as -> by congruence. cbn. now rewrite (IH r' eq_refl).
Qed.
Lemma enumerate_length {A} (l : list A) i : List.length (enumerate i l) = List.length l.
Proof. revert i. induction l as [|x l IH]; intros i; [reflexivity|]. cbn. now rewrite IH. Qed.
Lemma enumerate_fst {A} (l : list A) i : map fst (enumerate i l) = seq i (List.length l).
Proof. revert i. induction l as [|x l IH]; intros i; [reflexivity|]. cbn. now rewrite IH. Qed.
Definition peak_total (d : list (line * value)) : Qc := sum (map (fun p => sum (numbers (snd p))) d).
Definition good_group (gd : string * list (line * value)) (is : list info) : Prop :=
  map i_name is = flat_map (fun p => peak_names (fst p)) (snd gd) /\ sum (map i_area is) = peak_total (snd gd) /\ Forall (fun y => i_group y = fst gd) is /\ labelled (fst gd) is.
Lemma scattering_iff g : scattering g = true <-> scatters g.
Proof. unfold scattering, scatters. rewrite orb_true_iff, !String.eqb_eq. tauto. Qed.
Lemma split_length k l : k_kind k = Rayleigh \/ k_kind k = Compton -> split k = Ok l -> List.length l = List.length (numbers (k_energy k)).
Proof.
  intros K H. unfold split in H. rewrite numbers_asarray in H. destruct K as [K|K]; rewrite K in H;
  (destruct (numbers (k_energy k)) as [|e [|e' m]]; cbn in H;
   [assert (l = []) as -> by congruence; reflexivity|assert (l = [k]) as -> by congruence; reflexivity|
    match type of H with Ok ?x = Ok l => assert (l = x) as -> by congruence end; cbn [List.length]; now rewrite map_length]).
Qed.
Lemma group_info_spec shift g gd is : (forall p, In p (snd gd) -> k_group (fst p) = fst gd) ->
  Forall proper (snd gd) -> distinct_lines (snd gd) -> group_info shift g gd = Ok (Some is) -> good_group gd is.
Proof.
  destruct gd as [group d]. cbn [fst snd]. intros Hg P D H. unfold group_info in H. destruct (scattering group) eqn:Sg.
  - destruct d as [|[k v] d]; [discriminate|]. apply scattering_iff in Sg.
    inversion P as [|? ? P1 P2]; subst. unfold proper in P1. cbn [fst] in P1. pose proof (Hg _ (or_introl eq_refl)) as Gk. cbn [fst] in Gk.
    assert ((k_kind k = Rayleigh \/ k_kind k = Compton) /\ k_repr k = group /\ matched (k, v)) as (K & Rk & Mk).
    { destruct (k_kind k); [rewrite Gk in P1; contradiction|rewrite Gk in P1; contradiction| |]; destruct P1 as (A & B & C); (split; [tauto|split; [congruence|assumption]]). }
    assert (d = []) as ->.
    { destruct d as [|[k' v'] d]; [reflexivity|]. exfalso. inversion P2 as [|? ? P3 _]; subst. unfold proper in P3. cbn [fst] in P3.
      pose proof (Hg _ (or_intror (or_introl eq_refl))) as Gk'. cbn [fst] in Gk'.
      assert (k_repr k' = k_repr k) as E.
      { rewrite Gk' in P3. destruct (k_kind k'); [contradiction|contradiction| |]; destruct P3 as (A & B & C); congruence. }
      unfold distinct_lines in D. cbn [map fst] in D. inversion D as [|? ? D1 D2]; subst. apply D1. left. assumption. }
    destruct (split k) as [l|] eqn:Sp; [|discriminate]. cbn [bind] in H. pose proof (split_length k l K Sp) as Ll.
    assert (List.length (numbers (k_energy k)) = List.length (numbers v)) as Lv.
    { destruct Mk as [Mk|Mk]; [cbn [fst] in Mk; destruct K; congruence|exact Mk]. }
    rewrite numbers_asarray in H. apply describe_spec in H; [|rewrite map_length, enumerate_length; congruence]. destruct H as (A & B & C & E).
    unfold good_group. cbn [fst snd flat_map]. rewrite app_nil_r. split; [|split; [|split; assumption]].
    + rewrite A, map_map. cbn [fst]. rewrite <- (map_map fst (fun i => (group ++ shown i)%string)), enumerate_fst, Ll. unfold peak_names. rewrite Gk. destruct K as [-> | ->]; reflexivity.
    + rewrite B. unfold peak_total. cbn. ring.
  - assert (~ scatters group) as NS by (intros Q; apply scattering_iff in Q; congruence).
    destruct (all_scalar (map snd d)) as [areas|] eqn:As; [|discriminate]. apply all_scalar_spec in As.
    assert (List.length areas = List.length d) as La by (apply (f_equal (@List.length value)) in As; now rewrite !map_length in As).
    apply describe_spec in H; [|rewrite map_length; congruence]. destruct H as (A & B & C & E). unfold good_group. cbn [fst snd]. split; [|split; [|split; assumption]].
    + rewrite A, map_map. cbn [fst]. rewrite Forall_forall in P. clear -P Hg NS. induction d as [|p d IH]; [reflexivity|]. cbn [map flat_map]. rewrite IH by (intros; first [apply Hg|apply P]; now right).
      pose proof (P p (or_introl eq_refl)) as Pp. pose proof (Hg p (or_introl eq_refl)) as Gp. unfold proper in Pp. unfold peak_names. destruct (k_kind (fst p)); try reflexivity;
      exfalso; destruct Pp as (_ & Q & _); apply NS; rewrite <- Gp, Q; [now right|now left].
    + rewrite B. unfold peak_total. rewrite <- (map_map snd (fun v => sum (numbers v))), As, map_map. clear. induction areas as [|q l IH]; [reflexivity|]. cbn. cbn in IH. rewrite IH. ring.
Qed.

Lemma all_info_spec (f : string * list (line * value) -> result (option (list info))) gs ls l :
  mapM f gs = Ok ls -> all_info ls = Some l -> exists iss, Forall2 (fun gd is => f gd = Ok (Some is)) gs iss /\ l = concat iss.
Proof.
  revert ls l. induction gs as [|gd gs IH]; intros ls l M A.
  - assert (ls = []) as -> by (cbn in M; congruence). assert (l = []) as -> by (cbn in A; congruence). exists []. split; [constructor|reflexivity].
  - cbn [mapM] in M. destruct (f gd) as [o|] eqn:E; [|discriminate]. cbn [bind] in M. destruct (mapM f gs) as [ls'|] eqn:E'; [|discriminate]. cbn [bind] in M.
    assert (ls = o :: ls') as -> by congruence. cbn [all_info] in A. destruct o as [is|]; [|discriminate]. destruct (all_info ls') as [l'|] eqn:A'; [|discriminate].
    assert (l = is ++ l') as -> by congruence. destruct (IH ls' l' eq_refl A') as (iss & F & ->). exists (is :: iss). split; [constructor; assumption|reflexivity].
Qed.
Lemma assign_str_fresh {V} (k : string) (v : V) d : ~ In k (map fst d) -> assign String.eqb k v d = d ++ [(k, v)].
Proof.
  induction d as [|[a b] d IH]; cbn; intros H; [reflexivity|]. destruct (String.eqb k a) eqn:E; [apply String.eqb_eq in E; subst; tauto|]. f_equal. apply IH. tauto.
Qed.
Lemma by_name_nodup l : NoDup (map i_name l) -> by_name l = l.
Proof.
  unfold by_name. assert (forall l d, NoDup (map fst d ++ map i_name l) -> fold_left (fun d x => assign String.eqb (i_name x) x d) l d = d ++ map (fun x => (i_name x, x)) l) as H.
  { clear l. induction l as [|x l IH]; intros d ND; cbn [fold_left map]; [now rewrite app_nil_r|]. cbn [map] in ND. rewrite assign_str_fresh.
    - rewrite IH; [now rewrite <- app_assoc|]. rewrite map_app. cbn [map fst]. now rewrite <- app_assoc.
    - apply NoDup_remove_2 in ND. rewrite in_app_iff in ND. tauto. }
  intros ND. rewrite H by exact ND. cbn [app]. rewrite map_map. cbn [snd]. apply map_id.
Qed.
Lemma partition_perm (l : list (line * value)) gs : NoDup gs -> (forall p, In p l -> In (k_group (fst p)) gs) ->
  Permutation (flat_map (fun g => filter (fun p => String.eqb (k_group (fst p)) g) l) gs) l.
Proof.
  revert l. induction gs as [|g gs IH]; intros l ND C.
  - destruct l as [|p l]; [constructor|]. destruct (C p (or_introl eq_refl)).
  - inversion ND as [|? ? N1 N2]; subst. cbn [flat_map].
    assert (Permutation (filter (fun p => String.eqb (k_group (fst p)) g) l ++ filter (fun p => negb (String.eqb (k_group (fst p)) g)) l) l) as P.
    { clear. induction l as [|p l IH]; [constructor|]. cbn [filter]. destruct (String.eqb (k_group (fst p)) g); cbn [negb app]; [now apply perm_skip|].
      eapply Permutation_trans; [apply Permutation_sym, Permutation_middle|]. now apply perm_skip. }
    eapply Permutation_trans; [|exact P]. apply Permutation_app_head.
    specialize (IH (filter (fun p => negb (String.eqb (k_group (fst p)) g)) l) N2).
    eapply Permutation_trans; [|apply IH].
    + assert (forall g', In g' gs -> filter (fun p : line * value => String.eqb (k_group (fst p)) g') l = filter (fun p => String.eqb (k_group (fst p)) g') (filter (fun p => negb (String.eqb (k_group (fst p)) g)) l)) as E.
      { intros g' Hg'. clear -Hg' N1. induction l as [|p l IH]; [reflexivity|]. cbn [filter]. destruct (String.eqb (k_group (fst p)) g) eqn:Q; cbn [negb].
        - apply String.eqb_eq in Q. destruct (String.eqb (k_group (fst p)) g') eqn:Q'; [|assumption]. apply String.eqb_eq in Q'. exfalso. apply N1. congruence.
        - cbn [filter]. now rewrite IH. }
      clear -E. induction gs as [|g' gs IH]; [constructor|]. cbn [flat_map]. rewrite (E g' (or_introl eq_refl)). apply Permutation_app_head. apply IH. intros; apply E; now right.
    + intros p Hp. apply filter_In in Hp. destruct Hp as [Hp Q]. destruct (C p Hp) as [->|X]; [|assumption]. rewrite String.eqb_refl in Q. discriminate.
Qed.
Lemma concat_perm_names iss (gs : list (string * list (line * value))) : Forall2 good_group gs iss ->
  map i_name (concat iss) = flat_map (fun p => peak_names (fst p)) (flat_map snd gs) /\ sum (map i_area (concat iss)) = peak_total (flat_map snd gs).
Proof.
  induction 1 as [|gd is gs iss G _ [IH1 IH2]]; [split; reflexivity|]. destruct G as (A & B & _). cbn [concat flat_map]. rewrite !map_app, flat_map_app, sum_app, A, IH1, IH2, B.
  unfold peak_total. rewrite map_app, sum_app. auto.
Qed.
Lemma flat_map_perm {A B} (f : A -> list B) l l' : Permutation l l' -> Permutation (flat_map f l) (flat_map f l').
Proof.
  intros H. induction H; cbn; [constructor|now apply Permutation_app_head| |eapply Permutation_trans; eassumption].
  rewrite !app_assoc. apply Permutation_app_tail, Permutation_app_comm.
Qed.
Lemma lineinfo_spec shift four_pi convert srt s l r : items_converted shift four_pi convert false s = Ok l -> distinct_lines l -> Forall proper l ->
  NoDup (flat_map (fun p => peak_names (fst p)) l) -> lineinfo shift four_pi convert srt s = Ok (Some r) ->
  sum (map i_area r) = sum (map (fun p => sum (numbers (snd p))) l) /\
  Permutation (map i_name r) (flat_map (fun p => peak_names (fst p)) l) /\
  (srt = true -> ascending_by i_energy r) /\
  (forall p, In p l -> exists x, In x r /\ i_group x = k_group (fst p) /\ i_label x = Some (k_group (fst p)) /\
     forall y, In y r -> i_group y = k_group (fst p) -> i_area y <= i_area x /\ (i_label y <> None -> y = x)).
Proof.
  intros E D P NN H. unfold lineinfo in H. destruct (linegroups shift four_pi convert s) as [gs|] eqn:G; [|discriminate]. cbn [bind] in H.
  destruct (linegroups_spec _ _ _ _ _ G) as (l' & E' & Sp). assert (l' = l) as -> by congruence. destruct (Sp D) as (NK & Gd & Cv).
  destruct (mapM (group_info shift (sp_geom s)) gs) as [ls|] eqn:M; [|discriminate]. cbn [bind] in H. destruct (all_info ls) as [l0|] eqn:A; [|discriminate].
  destruct (all_info_spec _ _ _ _ M A) as (iss & F & ->).
  assert (flat_map snd gs = map (fun p => (fst p, grouped_value p)) (flat_map (fun g => filter (fun p => String.eqb (k_group (fst p)) g) l) (map fst gs))) as FM.
  { clear -Gd. induction gs as [|[g d] gs IH]; [reflexivity|]. cbn [flat_map map snd fst]. rewrite map_app, IH by (intros; apply Gd; now right). f_equal.
    destruct (Gd g d (or_introl eq_refl)) as [_ ->]. reflexivity. }
  assert (Permutation (flat_map (fun g => filter (fun p => String.eqb (k_group (fst p)) g) l) (map fst gs)) l) as PP.
  { apply partition_perm; [assumption|]. intros p Hp. destruct (Cv p Hp) as [d Hd]. apply in_map_iff. now exists (k_group (fst p), d). }
  assert (Forall2 good_group gs iss) as FG.
  { assert (forall gd, In gd gs -> (forall p, In p (snd gd) -> k_group (fst p) = fst gd) /\ Forall proper (snd gd) /\ distinct_lines (snd gd)) as Q.
    { intros [g d] Hgd. destruct (Gd g d Hgd) as [_ ->]. cbn [fst snd]. unfold of_group. split; [|split].
      - intros p Hp. apply in_map_iff in Hp. destruct Hp as (q & <- & Hq). apply filter_In in Hq. cbn [fst]. now apply String.eqb_eq.
      - apply Forall_forall. intros p Hp. apply in_map_iff in Hp. destruct Hp as (q & <- & Hq). apply filter_In in Hq. rewrite Forall_forall in P. specialize (P q (proj1 Hq)).
        unfold proper in *. cbn [fst] in *. unfold matched in *. cbn [fst snd] in *. unfold grouped_value. destruct (k_kind (fst q)); assumption.
      - unfold distinct_lines in *. rewrite map_map. cbn [fst]. clear -D. induction l as [|p l IH]; [constructor|]. cbn [map] in D. inversion D; subst. cbn [filter].
        destruct (String.eqb _ g); [|now apply IH]. cbn [map]. constructor; [|now apply IH]. intros X. apply H1. apply in_map_iff in X. destruct X as (q & Eq & Hq). apply filter_In in Hq. apply in_map_iff. exists q. tauto. }
    clear -F Q. induction F as [|gd is gs iss Hf F IH]; [constructor|]. constructor; [|apply IH; intros; apply Q; now right].
    destruct (Q gd (or_introl eq_refl)) as (Q1 & Q2 & Q3). eapply group_info_spec; eassumption. }
  destruct (concat_perm_names _ _ FG) as [CN CT]. rewrite FM in CN, CT.
  assert (Permutation (map i_name (concat iss)) (flat_map (fun p => peak_names (fst p)) l)) as PN.
  { rewrite CN. rewrite (flat_map_concat_map _ (map _ _)), map_map. cbn [fst]. rewrite <- flat_map_concat_map. now apply flat_map_perm. }
  assert (by_name (concat iss) = concat iss) as BN by (apply by_name_nodup; eapply Permutation_NoDup; [apply Permutation_sym, PN|assumption]).
  rewrite BN in H.
  assert (Permutation r (concat iss)) as PR.
  { assert (r = if srt then sort_by i_energy (concat iss) else concat iss) as -> by congruence. destruct srt; [apply sort_by_perm|apply Permutation_refl]. }
  split; [|split; [|split]].
  - rewrite (sum_perm _ _ (Permutation_map i_area PR)), CT. unfold peak_total. rewrite map_map. cbn [snd].
    rewrite (map_ext _ (fun p : line * value => sum (numbers (snd p)))).
    + apply sum_perm. now apply Permutation_map.
    + intros p. unfold grouped_value. destruct (k_kind (fst p)); try reflexivity. cbn [numbers sum]. rewrite np_sum_sum. ring.
  - eapply Permutation_trans; [apply Permutation_map, PR|exact PN].
  - intros ->. assert (r = sort_by i_energy (concat iss)) as -> by congruence. apply sort_by_ascending.
  - intros p Hp. destruct (Cv p Hp) as [d Hd]. set (g := k_group (fst p)) in *.
    assert (exists is, In is iss /\ good_group (g, d) is) as (is & Hi & (_ & _ & Fg & a & x & b & Eis & Lx & Fl & Fa)).
    { clear -FG Hd. induction FG as [|gd is gs iss Hf F IH]; [contradiction|]. destruct Hd as [->|Hd]; [exists is; split; [now left|assumption]|].
      destruct (IH Hd) as (is' & A & B). exists is'. split; [now right|assumption]. }
    cbn [fst] in Fg, Lx. assert (In x is) as Xi by (rewrite Eis; apply in_or_app; right; now left).
    assert (forall y, In y (concat iss) -> i_group y = g -> In y is) as Only.
    { intros y Hy Gy. apply in_concat in Hy. destruct Hy as (is' & Hi' & Hy). assert (exists gd, In gd gs /\ good_group gd is' /\ Forall2 good_group gs iss) as (gd & Hgd & (_ & _ & Fg' & _) & _).
      { clear -FG Hi'. induction FG as [|gd is gs iss Hf F IH]; [contradiction|]. destruct Hi' as [->|Hi']; [exists gd; split; [now left|split; [assumption|constructor; assumption]]|].
        destruct (IH Hi') as (gd' & A & B & _). exists gd'. split; [now right|split; [assumption|constructor; assumption]]. }
      rewrite Forall_forall in Fg'. specialize (Fg' y Hy). assert (fst gd = g) as Eg by congruence.
      (* the groups are distinct, so the lists are the same *)
      assert (is' = is) as <-; [|assumption].
      assert (forall gs iss, Forall2 good_group gs iss -> NoDup (map fst gs) -> forall is' is y x, In is' iss -> In is iss -> In y is' -> In x is -> i_group y = i_group x -> is' = is) as U.
      { clear. induction 1 as [|gd0 is0 gs iss (_ & _ & G0 & _) F IH]; intros ND is' is y x I' I Hy Hx E; [contradiction|]. cbn in ND. inversion ND as [|? ? N1 N2]; subst.
        assert (forall is1 y1, In is1 iss -> In y1 is1 -> In (i_group y1) (map fst gs)) as K.
        { clear -F. induction F as [|gd1 is2 gs iss (_ & _ & G1 & _) F IH]; intros is1 y1 I1 H1; [contradiction|]. destruct I1 as [->|I1]; [left; rewrite Forall_forall in G1; symmetry; now apply G1|right; eapply IH; eassumption]. }
        rewrite Forall_forall in G0. destruct I' as [->|I'], I as [->|I]; [reflexivity| | |eapply IH; eassumption].
        - exfalso. apply N1. rewrite <- (G0 y Hy), E. eapply K; eassumption.
        - exfalso. apply N1. rewrite <- (G0 x Hx), <- E. eapply K; eassumption. }
      apply (U gs iss FG NK is' is y x Hi' Hi Hy Xi). rewrite Forall_forall in Fg. rewrite (Fg x Xi). congruence. }
    exists x. split; [apply (Permutation_in _ (Permutation_sym PR)), in_concat; exists is; split; assumption|]. split; [rewrite Forall_forall in Fg; now apply Fg|]. split; [assumption|].
    intros y Hy Gy. apply (Permutation_in _ PR) in Hy. specialize (Only y Hy Gy). rewrite Eis in Only. apply in_app_or in Only. rewrite Forall_forall in Fl, Fa.
    destruct Only as [O|[->|O]].
    + split; [apply Fa, in_or_app; now left|]. intros N. destruct N. apply Fl, in_or_app. now left.
    + split; [apply Qcle_refl|reflexivity].
    + split; [apply Fa, in_or_app; now right|]. intros N. destruct N. apply Fl, in_or_app. now right.
Qed.

(* ---- sums of spectra ---- *)
Definition oval (h : heap) (o : object) : value := match o with ONum q => Scalar q | ORef r => Array (deref h r) end.
Lemma deref_set h r l r' : (r < List.length h)%nat -> deref (set_nth h r l) r' = if (r' =? r)%nat then l else deref h r'.
Proof.
  unfold deref. revert r r'. induction h as [|x h IH]; intros [|r] [|r'] L; cbn in *; try lia; try reflexivity. apply IH. lia.
Qed.
Lemma set_length (h : heap) r l : List.length (set_nth h r l) = List.length h.
Proof. revert r. induction h as [|x h IH]; intros [|r]; cbn; try reflexivity. now rewrite IH. Qed.
Lemma deref_app h x r : (r < List.length h)%nat -> deref (h ++ x) r = deref h r.
Proof. intros L. unfold deref. now rewrite app_nth1. Qed.
Lemma deref_last h l : deref (h ++ [l]) (List.length h) = l.
Proof. unfold deref. rewrite app_nth2 by lia. now rewrite Nat.sub_diag. Qed.
Lemma zip_combine l : forall m, zip_with Qcplus l m = map (fun p => fst p + snd p) (combine l m).
Proof. induction l as [|a l IH]; intros [|b m]; cbn; try reflexivity. now rewrite IH. Qed.
Lemma add_in_place_spec h c o g : (forall f, c <> Fun f) -> (forall r, c = Ref r -> (r < List.length h)%nat) -> compatible (content h g c) (oval h o) ->
  exists h' c', add_in_place h c o = Ok (h', c') /\ content h' g c' = plus (content h g c) (oval h o) /\ (List.length h <= List.length h')%nat /\
    (forall r, (r < List.length h)%nat -> c <> Ref r -> deref h' r = deref h r) /\
    (forall r, c' = Ref r -> c = Ref r \/ (List.length h <= r < List.length h')%nat) /\ (forall r, c = Ref r -> c' = Ref r) /\ (forall f, c' <> Fun f).
Proof.
  intros NF A C. destruct c as [q|r|f]; [| |now destruct (NF f)]; destruct o as [b|r'].
  - exists h, (Num (q + b)). repeat split; try discriminate. lia.
  - exists (h ++ [map (fun b => q + b) (deref h r')]), (Ref (List.length h)). split; [reflexivity|]. split; [cbn; now rewrite deref_last|]. rewrite app_length. cbn [List.length].
    split; [lia|]. split; [intros; now apply deref_app|]. split; [|split; discriminate]. intros r E. assert (r = List.length h) as -> by congruence. right. lia.
  - pose proof (A r eq_refl) as L. exists (set_nth h r (map (fun a => a + b) (deref h r))), (Ref r). split; [reflexivity|]. split; [cbn; now rewrite deref_set, Nat.eqb_refl|].
    rewrite set_length. split; [lia|]. split; [|split; [intros; now left|split; [congruence|discriminate]]]. intros r0 _ N. rewrite deref_set by assumption. destruct (r0 =? r)%nat eqn:E; [apply Nat.eqb_eq in E; congruence|reflexivity].
  - pose proof (A r eq_refl) as L. exists (set_nth h r (zip_with Qcplus (deref h r) (deref h r'))), (Ref r). cbn in C. split; [cbn; now rewrite C, Nat.eqb_refl|].
    split; [cbn; now rewrite deref_set, Nat.eqb_refl, zip_combine|].
    rewrite set_length. split; [lia|]. split; [|split; [intros; now left|split; [congruence|discriminate]]]. intros r0 _ N. rewrite deref_set by assumption. destruct (r0 =? r)%nat eqn:E; [apply Nat.eqb_eq in E; congruence|reflexivity].
Qed.
Lemma same_eq a b : same a b = String.eqb (k_repr a) (k_repr b). Proof. reflexivity. Qed.
Lemma lookup_assign_same {V} k k' (v : V) d : lookup same k (assign same k' v d) = if same k k' then Some v else lookup same k d.
Proof.
  induction d as [|[a b] d IH]; cbn; [reflexivity|]. destruct (same k' a) eqn:E; cbn.
  - apply same_spec in E. rewrite !same_eq, E. now destruct (String.eqb (k_repr k) (k_repr a)).
  - rewrite IH. destruct (same k a) eqn:E1; [|reflexivity]. destruct (same k k') eqn:E2; [|reflexivity]. apply same_spec in E1, E2. assert (same k' a = true) by (apply same_spec; congruence). congruence.
Qed.
Lemma lookup_same_repr {V} k k' (d : list (line * V)) : k_repr k = k_repr k' -> lookup same k d = lookup same k' d.
Proof. intros E. induction d as [|[a b] d IH]; cbn; [reflexivity|]. rewrite !same_eq, E, IH. reflexivity. Qed.
Lemma lookup_same_none {V} k (d : list (line * V)) : ~ In (k_repr k) (map (fun p => k_repr (fst p)) d) -> lookup same k d = None.
Proof.
  induction d as [|[a b] d IH]; cbn; intros H; [reflexivity|]. destruct (same k a) eqn:E; [apply same_spec in E; destruct H; left; congruence|]. apply IH. tauto.
Qed.
Lemma lookup_same_in {V} k (d : list (line * V)) v : lookup same k d = Some v -> exists k', k_repr k' = k_repr k /\ In (k', v) d.
Proof.
  induction d as [|[a b] d IH]; cbn; [discriminate|]. destruct (same k a) eqn:E; intros H.
  - assert (b = v) as -> by congruence. apply same_spec in E. exists a. split; [congruence|now left].
  - destruct (IH H) as (k' & A & B). exists k'. split; [assumption|now right].
Qed.
Definition added (h : heap) (g : geom) (c : option cell) (o : option object) : option value :=
  match c, o with
  | Some c, Some o => Some (plus (content h g c) (oval h o))
  | Some c, None => Some (content h g c)
  | None, Some o => Some (oval h o)
  | None, None => None
  end.
Lemma loop_spec g : forall others h mine, distinct_lines others ->
  (forall k r, lookup same k mine = Some (Ref r) -> (r < List.length h)%nat) -> (forall k r, lookup same k others = Some (ORef r) -> (r < List.length h)%nat) ->
  (forall k k' r, lookup same k mine = Some (Ref r) -> lookup same k' mine = Some (Ref r) -> k_repr k = k_repr k') ->
  (forall k k' r, lookup same k others = Some (ORef r) -> lookup same k' others = Some (ORef r) -> k_repr k = k_repr k') ->
  (forall k k' r, lookup same k mine = Some (Ref r) -> lookup same k' others = Some (ORef r) -> False) ->
  (forall k c o, lookup same k mine = Some c -> lookup same k others = Some o -> (forall f, c <> Fun f) /\ compatible (content h g c) (oval h o)) ->
  exists h' mine', iadd_loop h mine others = (h', mine', Ok tt) /\
    (forall k, option_map (content h' g) (lookup same k mine') = added h g (lookup same k mine) (lookup same k others)) /\
    (forall r, (r < List.length h)%nat -> (forall k, lookup same k mine = Some (Ref r) -> lookup same k others = None) -> deref h' r = deref h r) /\
    (forall k o, lookup same k mine = None -> lookup same k others = Some o -> lookup same k mine' = Some (cell_of o)) /\
    (forall k, lookup same k others = None -> lookup same k mine' = lookup same k mine).
Proof.
  induction others as [|[k o] rest IH]; intros h mine D AM AO UM UO DJ CP.
  - exists h, mine. split; [reflexivity|]. split; [intros k; cbn; now destruct (lookup same k mine)|]. split; [reflexivity|]. split; [discriminate|reflexivity].
  - unfold distinct_lines in D. cbn [map fst] in D. inversion D as [|? ? D1 D2]; subst. pose proof (lookup_same_none k rest D1) as KR.
    assert (forall k', same k' k = true -> lookup same k' rest = None) as KR'.
    { intros k' E. apply same_spec in E. now rewrite (lookup_same_repr _ _ rest E). }
    assert (lookup same k ((k, o) :: rest) = Some o) as KO by (cbn; rewrite same_eq, String.eqb_refl; reflexivity).
    assert (forall k', same k' k = false -> lookup same k' ((k, o) :: rest) = lookup same k' rest) as RO by (intros k' E; cbn; now rewrite E).
    assert (forall k' o', lookup same k' rest = Some o' -> same k' k = false /\ lookup same k' ((k, o) :: rest) = Some o') as RS.
    { intros k' o' E. destruct (same k' k) eqn:Q; [rewrite (KR' k' Q) in E; discriminate|]. split; [reflexivity|]. now rewrite RO. }
    cbn [iadd_loop]. destruct (lookup same k mine) as [c|] eqn:LK.
    + destruct (CP k c o LK KO) as [NF CO].
      destruct (add_in_place_spec h c o g NF (fun r E => AM k r (eq_trans LK (f_equal Some E))) CO) as (h1 & c1 & -> & V1 & L1 & K1 & R1 & S1 & NF1).
      assert (forall k' r, same k' k = false -> lookup same k' mine = Some (Ref r) -> deref h1 r = deref h r) as M1.
      { intros k' r E Hk'. apply K1; [now apply (AM k')|]. intros ->. pose proof (UM k' k r Hk' LK) as Q. apply same_spec in Q. congruence. }
      assert (forall k' o', lookup same k' rest = Some o' -> oval h1 o' = oval h o') as O1.
      { intros k' o' E. destruct o' as [q|r]; [reflexivity|]. cbn. f_equal. destruct (RS k' _ E) as [_ E']. apply K1; [now apply (AO k')|]. intros ->. now apply (DJ k k' r). }
      assert (forall k' c', same k' k = false -> lookup same k' mine = Some c' -> content h1 g c' = content h g c') as C1.
      { intros k' c' E Hk'. destruct c' as [q|r|f]; try reflexivity. cbn. f_equal. now apply (M1 k'). }
      destruct (IH h1 (assign same k c1 mine)) as (h' & mine' & E' & A' & B' & P' & Q'); clear IH.
      * assumption.
      * intros k' r. rewrite lookup_assign_same. destruct (same k' k) eqn:E; intros H; [|apply AM in H; lia].
        assert (c1 = Ref r) as X by congruence. destruct (R1 r X) as [Y|Y]; [|lia]. subst c. apply AM in LK. lia.
      * intros k' r H. destruct (RS k' _ H) as [_ H']. apply AO in H'. lia.
      * intros k1 k2 r. rewrite !lookup_assign_same. destruct (same k1 k) eqn:E1, (same k2 k) eqn:E2; intros H1 H2.
        -- apply same_spec in E1, E2. congruence.
        -- assert (c1 = Ref r) as X by congruence. destruct (R1 r X) as [Y|Y]; [|apply AM in H2; lia]. subst c. pose proof (UM k k2 r LK H2) as Z. assert (same k2 k = true) by (apply same_spec; congruence). congruence.
        -- assert (c1 = Ref r) as X by congruence. destruct (R1 r X) as [Y|Y]; [|apply AM in H1; lia]. subst c. pose proof (UM k k1 r LK H1) as Z. assert (same k1 k = true) by (apply same_spec; congruence). congruence.
        -- now apply (UM k1 k2 r).
      * intros k1 k2 r H1 H2. destruct (RS k1 _ H1), (RS k2 _ H2). now apply (UO k1 k2 r).
      * intros k1 k2 r. rewrite lookup_assign_same. intros H1 H2. destruct (RS k2 _ H2) as [_ H2']. destruct (same k1 k) eqn:E; [|now apply (DJ k1 k2 r)].
        assert (c1 = Ref r) as X by congruence. destruct (R1 r X) as [Y|Y]; [|apply AO in H2'; lia]. subst c. now apply (DJ k k2 r).
      * intros k' c' o'. rewrite lookup_assign_same. intros H1 H2. destruct (RS k' _ H2) as [E H2']. rewrite E in H1. destruct (CP k' c' o' H1 H2') as [X Y].
        split; [assumption|]. now rewrite (C1 k' c' E H1), (O1 k' o' H2).
      * exists h', mine'. split; [assumption|]. split; [|split; [|split]].
        -- intros k'. rewrite A', lookup_assign_same. destruct (same k' k) eqn:E.
           ++ rewrite (KR' k' E). apply same_spec in E. rewrite (lookup_same_repr _ _ mine E), (lookup_same_repr _ _ _ E), LK, KO. cbn [added]. now rewrite V1.
           ++ rewrite (RO k' E). destruct (lookup same k' mine) as [c'|] eqn:E1, (lookup same k' rest) as [o'|] eqn:E2; cbn [added]; try reflexivity.
              ** now rewrite (C1 k' c' E E1), (O1 k' o' E2).
              ** now rewrite (C1 k' c' E E1).
              ** now rewrite (O1 k' o' E2).
        -- intros r Lr Hr. assert (c <> Ref r) as N by (intros ->; rewrite (Hr k LK) in KO; discriminate).
           rewrite B'; [now apply K1|lia|]. intros k'. rewrite lookup_assign_same. destruct (same k' k) eqn:E; [intros _; now apply KR'|]. intros H. rewrite <- (RO k' E). now apply Hr.
        -- intros k' o' H1 H2. destruct (same k' k) eqn:E; [apply same_spec in E; rewrite (lookup_same_repr _ _ mine E) in H1; congruence|]. apply P'; [now rewrite lookup_assign_same, E|]. now rewrite <- (RO k' E).
        -- intros k' H. destruct (same k' k) eqn:E; [cbn in H; rewrite E in H; discriminate|]. rewrite RO in H by assumption. rewrite Q' by assumption. now rewrite lookup_assign_same, E.
    + assert (forall r, cell_of o = Ref r -> o = ORef r) as CR by (destruct o; cbn; congruence).
      assert (content h g (cell_of o) = oval h o) as CV by (now destruct o).
      destruct (IH h (assign same k (cell_of o) mine)) as (h' & mine' & E' & A' & B' & P' & Q'); clear IH.
      * assumption.
      * intros k' r. rewrite lookup_assign_same. destruct (same k' k) eqn:E; intros H; [|now apply (AM k')]. apply (AO k). rewrite KO. f_equal. apply CR. congruence.
      * intros k' r H. destruct (RS k' _ H). now apply (AO k').
      * intros k1 k2 r. rewrite !lookup_assign_same. destruct (same k1 k) eqn:E1, (same k2 k) eqn:E2; intros H1 H2.
        -- apply same_spec in E1, E2. congruence.
        -- exfalso. apply (DJ k2 k r H2). rewrite KO. f_equal. apply CR. congruence.
        -- exfalso. apply (DJ k1 k r H1). rewrite KO. f_equal. apply CR. congruence.
        -- now apply (UM k1 k2 r).
      * intros k1 k2 r H1 H2. destruct (RS k1 _ H1), (RS k2 _ H2). now apply (UO k1 k2 r).
      * intros k1 k2 r. rewrite lookup_assign_same. intros H1 H2. destruct (RS k2 _ H2) as [E2 H2']. destruct (same k1 k) eqn:E; [|now apply (DJ k1 k2 r)].
        assert (o = ORef r) as -> by (apply CR; congruence). pose proof (UO k k2 r KO H2') as Z. assert (same k2 k = true) by (apply same_spec; congruence). congruence.
      * intros k' c' o'. rewrite lookup_assign_same. intros H1 H2. destruct (RS k' _ H2) as [E H2']. rewrite E in H1. now apply (CP k' c' o').
      * exists h', mine'. split; [assumption|]. split; [|split; [|split]].
        -- intros k'. rewrite A', lookup_assign_same. destruct (same k' k) eqn:E.
           ++ rewrite (KR' k' E). apply same_spec in E. rewrite (lookup_same_repr _ _ mine E), (lookup_same_repr _ _ _ E), LK, KO. cbn [added]. now rewrite CV.
           ++ now rewrite (RO k' E).
        -- intros r Lr Hr. apply B'; [assumption|]. intros k'. rewrite lookup_assign_same. destruct (same k' k) eqn:E; [intros _; now apply KR'|]. intros H. rewrite <- (RO k' E). now apply Hr.
        -- intros k' o' H1 H2. destruct (same k' k) eqn:E.
           ++ rewrite (Q' k' (KR' k' E)), lookup_assign_same, E. apply same_spec in E. rewrite (lookup_same_repr _ _ _ E), KO in H2. congruence.
           ++ apply P'; [now rewrite lookup_assign_same, E|]. now rewrite <- (RO k' E).
        -- intros k' H. destruct (same k' k) eqn:E; [cbn in H; rewrite E in H; discriminate|]. rewrite RO in H by assumption. rewrite Q' by assumption. now rewrite lookup_assign_same, E.
Qed.

Lemma object_content h g c : oval h (object_of g c) = content h g c.
Proof. now destruct c. Qed.
Lemma object_ref g c r : object_of g c = ORef r -> c = Ref r.
Proof. destruct c; cbn; congruence. Qed.
Lemma lookup_objects g k l : lookup same k (map (fun p => (fst p, object_of g (snd p))) l) = option_map (object_of g) (lookup same k l).
Proof. induction l as [|[a c] l IH]; cbn; [reflexivity|]. now destruct (same k a). Qed.
Lemma iadd_all h a b : st_type a = st_type b -> distinct_lines (st_lines b) -> allocated h a -> allocated h b -> separate a b -> summable h a b ->
  exists h' a', iadd h a b = (h', a', Ok tt) /\
    (forall k, value_of h' a' k = match value_of h a k, value_of h b k with Some v, Some w => Some (plus v w) | Some v, None => Some v | None, o => o end) /\
    (forall k, value_of h' b k = value_of h b k) /\
    (forall k c g, lookup same k (st_lines a) = None -> lookup same k (st_lines b) = Some c -> option_map (content h' g) (lookup same k (st_lines a')) = value_of h b k) /\
    st_geom a' = st_geom a.
Proof.
  intros T D Aa Ab (Ua & Ub & Dj) CP. unfold iadd. rewrite T. assert (stype_eqb (st_type b) (st_type b) = true) as -> by now destruct (st_type b).
  set (others := map (fun p => (fst p, object_of (st_geom b) (snd p))) (st_lines b)).
  assert (forall k, lookup same k others = option_map (object_of (st_geom b)) (lookup same k (st_lines b))) as LO by (intros; apply lookup_objects).
  assert (forall k r, lookup same k others = Some (ORef r) -> lookup same k (st_lines b) = Some (Ref r)) as LR.
  { intros k r. rewrite LO. destruct (lookup same k (st_lines b)) as [c|]; [|discriminate]. cbn. intros H. f_equal. apply (object_ref (st_geom b)). congruence. }
  destruct (loop_spec (st_geom a) others h (st_lines a)) as (h' & m' & -> & A & B & P & Q).
  - unfold distinct_lines, others. now rewrite map_map.
  - intros k r H. apply lookup_same_in in H. destruct H as (k' & _ & H). now apply Aa in H.
  - intros k r H. apply LR, lookup_same_in in H. destruct H as (k' & _ & H). now apply Ab in H.
  - intros k k' r H H'. apply lookup_same_in in H, H'. destruct H as (k1 & <- & H), H' as (k2 & <- & H'). now rewrite (Ua _ _ _ H H').
  - intros k k' r H H'. apply LR, lookup_same_in in H. apply LR, lookup_same_in in H'. destruct H as (k1 & <- & H), H' as (k2 & <- & H'). now rewrite (Ub _ _ _ H H').
  - intros k k' r H H'. apply lookup_same_in in H. apply LR, lookup_same_in in H'. destruct H as (k1 & _ & H), H' as (k2 & _ & H'). now apply (Dj _ _ _ H H').
  - intros k c o H H'. rewrite LO in H'. destruct (lookup same k (st_lines b)) as [c'|] eqn:E; [|discriminate]. assert (o = object_of (st_geom b) c') as -> by (cbn in H'; congruence).
    rewrite object_content. apply lookup_same_in in H, E. destruct H as (k1 & E1 & H), E as (k2 & E2 & E). apply (CP k1 k2 c c' H E). congruence.
  - eexists _, _. split; [reflexivity|]. assert (forall k, value_of h' b k = value_of h b k) as VB.
    { intros k. unfold value_of. destruct (lookup same k (st_lines b)) as [c|] eqn:E; [|reflexivity]. cbn. f_equal. destruct c as [q|r|f]; try reflexivity. cbn. f_equal. apply B.
      - apply lookup_same_in in E. destruct E as (k' & _ & E). now apply Ab in E.
      - intros k0 H. apply lookup_same_in in H, E. destruct H as (k1 & _ & H), E as (k2 & _ & E). destruct (Dj _ _ _ H E). }
    split; [|split; [exact VB|split; [|reflexivity]]].
    + intros k. unfold value_of at 1. cbn [st_lines st_geom]. rewrite A, LO. unfold value_of. destruct (lookup same k (st_lines a)), (lookup same k (st_lines b)); cbn; try reflexivity; now rewrite object_content.
    + intros k c g H H'. cbn [st_lines]. rewrite (P k (object_of (st_geom b) c) H); [|now rewrite LO, H']. rewrite <- VB. unfold value_of. rewrite H'. cbn. f_equal. now destruct c.
Qed.
Lemma iadd_sum h a b : st_type a = st_type b -> distinct_lines (st_lines b) -> allocated h a -> allocated h b -> separate a b -> summable h a b ->
  exists h' a', iadd h a b = (h', a', Ok tt) /\
    (forall k, value_of h' a' k = match value_of h a k, value_of h b k with Some v, Some w => Some (plus v w) | Some v, None => Some v | None, o => o end) /\
    (forall k, value_of h' b k = value_of h b k).
Proof. intros T D A1 A2 S C. destruct (iadd_all h a b T D A1 A2 S C) as (h' & a' & E & V & W & _). exists h', a'. auto. Qed.
Lemma iadd_frozen h a b k f : st_type a = st_type b -> distinct_lines (st_lines b) -> allocated h a -> allocated h b -> separate a b -> summable h a b ->
  value_of h a k = None -> lookup same k (st_lines b) = Some (Fun f) ->
  exists h' a', iadd h a b = (h', a', Ok tt) /\ forall g, value_of h' {| st_lines := st_lines a'; st_type := st_type a'; st_geom := g |} k = Some (Scalar (f (st_geom b))).
Proof.
  intros T D A1 A2 S C N L. destruct (iadd_all h a b T D A1 A2 S C) as (h' & a' & E & _ & _ & F & _). exists h', a'. split; [assumption|]. intros g. unfold value_of. cbn [st_lines st_geom].
  rewrite (F k (Fun f) g); [unfold value_of; now rewrite L| |assumption]. unfold value_of in N. now destruct (lookup same k (st_lines a)).
Qed.
Lemma iadd_type h a b : st_type a <> st_type b -> iadd h a b = (h, a, Err ValueError).
Proof. intros N. unfold iadd. destruct (st_type a), (st_type b); try congruence; reflexivity. Qed.
Lemma loop_fun k f : forall others h mine, lookup same k mine = Some (Fun f) -> lookup same k others <> None -> exists e, snd (iadd_loop h mine others) = Err e.
Proof.
  induction others as [|[k' o] rest IH]; intros h mine M O; [now destruct O|]. cbn [iadd_loop]. destruct (same k k') eqn:E.
  - apply same_spec in E. rewrite (lookup_same_repr _ _ mine E) in M. rewrite M. cbn. eauto.
  - cbn in O. rewrite E in O. destruct (lookup same k' mine) as [c|].
    + destruct (add_in_place h c o) as [[h1 c1]|e]; [|cbn; eauto]. apply IH; [now rewrite lookup_assign_same, E|assumption].
    + apply IH; [now rewrite lookup_assign_same, E|assumption].
Qed.
Lemma iadd_function h a b k f : lookup same k (st_lines a) = Some (Fun f) -> value_of h b k <> None -> exists e, snd (iadd h a b) = Err e.
Proof.
  intros A B. unfold iadd. destruct (stype_eqb _ _); [|cbn; eauto].
  destruct (loop_fun k f (map (fun p => (fst p, object_of (st_geom b) (snd p))) (st_lines b)) h (st_lines a) A) as [e E].
  - rewrite lookup_objects. unfold value_of in B. destruct (lookup same k (st_lines b)); [discriminate|now destruct B].
  - destruct (iadd_loop _ _ _) as [[h' l] r]. cbn in *. eauto.
Qed.
Lemma iadd_shape h a b k r r' t g g' : st_lines a = [(k, Ref r)] -> st_lines b = [(k, Ref r')] -> st_type a = t -> st_type b = t -> st_geom a = g -> st_geom b = g' ->
  List.length (deref h r) <> List.length (deref h r') -> List.length (deref h r') <> 1%nat -> iadd h a b = (h, a, Err ValueError).
Proof.
  intros A B Ta Tb Ga Gb N O. unfold iadd. rewrite Ta, Tb, A, B. assert (stype_eqb t t = true) as -> by now destruct t. cbn [map iadd_loop fst snd object_of lookup].
  rewrite same_eq, String.eqb_refl. cbn [add_in_place]. apply Nat.eqb_neq in N. rewrite N. destruct (deref h r') as [|q [|q' l]]; cbn in O; try congruence; destruct a; cbn in *; subst; reflexivity.
Qed.
Lemma iadd_shared k l m t g g1 g2 : List.length l = List.length m ->
  let a := {| st_lines := []; st_type := t; st_geom := g |} in
  let b := {| st_lines := [(k, Ref 0)]; st_type := t; st_geom := g1 |} in
  let c := {| st_lines := [(k, Ref 1)]; st_type := t; st_geom := g2 |} in
  exists h1 a1 h2 a2, iadd [l; m] a b = (h1, a1, Ok tt) /\ iadd h1 a1 c = (h2, a2, Ok tt) /\
    value_of [l; m] b k = Some (Array l) /\ value_of h2 b k = Some (plus (Array l) (Array m)).
Proof.
  intros L a b c. assert (stype_eqb t t = true) as Ht by now destruct t. assert (same k k = true) as Hk by (rewrite same_eq; apply String.eqb_refl).
  exists [l; m], {| st_lines := [(k, Ref 0)]; st_type := t; st_geom := g |}, [zip_with Qcplus l m; m], {| st_lines := [(k, Ref 0)]; st_type := t; st_geom := g |}.
  unfold iadd, value_of. cbn. rewrite Ht, Hk. cbn. rewrite L, Nat.eqb_refl. cbn. now rewrite zip_combine.
Qed.
Lemma iadd_half k k' x y z f h t g g1 : k_repr k <> k_repr k' ->
  let a := {| st_lines := [(k, Num x); (k', Fun f)]; st_type := t; st_geom := g |} in
  let b := {| st_lines := [(k, Num y); (k', Num z)]; st_type := t; st_geom := g1 |} in
  exists a', iadd h a b = (h, a', Err TypeError) /\ value_of h a' k = Some (Scalar (x + y)).
Proof.
  intros N a b. assert (stype_eqb t t = true) as Ht by now destruct t. assert (forall k, same k k = true) as Hk by (intros; rewrite same_eq; apply String.eqb_refl).
  assert (same k' k = false) as Hn by (destruct (same k' k) eqn:E; [apply same_spec in E; congruence|reflexivity]).
  exists {| st_lines := [(k, Num (x + y)); (k', Fun f)]; st_type := t; st_geom := g |}. unfold iadd, value_of. cbn. rewrite Ht, !Hk. cbn. rewrite Hn, Hk. cbn. auto.
Qed.
Lemma items_sorted_stable shift s l q : items_sorted shift true s = Ok l ->
  filter (fun p => match np_max (energy shift (sp_geom s) (fst p)) with Ok e => Qc_eqb e q | Err _ => false end) l =
  filter (fun p => match np_max (energy shift (sp_geom s) (fst p)) with Ok e => Qc_eqb e q | Err _ => false end) (items s).
Proof.
  cbn [items_sorted]. destruct (mapM _ (items s)) as [r|] eqn:E; [|discriminate]. cbn [bind]. intros H. assert (l = map snd (sort_by fst r)) as -> by congruence.
  destruct (mapM_keyed _ _ _ E) as [A B]. cbv beta in B. rewrite <- A.
  assert (forall r', Forall (fun x => np_max (energy shift (sp_geom s) (fst (snd x))) = Ok (fst x)) r' ->
    filter (fun p => match np_max (energy shift (sp_geom s) (fst p)) with Ok e => Qc_eqb e q | Err _ => false end) (map snd r') = map snd (filter (fun y : Qc * (line * value) => Qc_eqb (fst y) q) r')) as F.
  { clear. induction 1 as [|x r' Hx _ IH]; [reflexivity|]. cbn [map filter]. rewrite Hx, IH. now destruct (Qc_eqb (fst x) q). }
  rewrite !F, sort_by_stable; [reflexivity|assumption|]. rewrite Forall_forall in *. intros x Hx. apply B. now apply (Permutation_in _ (sort_by_perm fst r)).
Qed.
Lemma spectrum_counts shift four_pi str s l p : spectrum_ shift four_pi str false s = Ok l ->
  exists d, spectrum_dict shift four_pi str s = Ok d /\ (lookup pair_eqb p d <> None <-> In p l) /\ (forall n, lookup pair_eqb p d = Some n -> n = count_occ pair_dec l p).
Proof.
  intros E. unfold spectrum_dict. rewrite E. cbn [bind]. exists (counter l). split; [reflexivity|]. rewrite counter_spec.
  assert (occurrences p l = count_occ pair_dec l p) as O.
  { unfold occurrences. clear. induction l as [|q l IH]; [reflexivity|]. cbn [filter count_occ]. destruct (pair_dec q p) as [->|N].
    - assert (pair_eqb p p = true) as -> by now apply pair_eqb_spec. cbn. now rewrite IH.
    - destruct (pair_eqb p q) eqn:X; [apply pair_eqb_spec in X; congruence|exact IH]. }
  rewrite O. split.
  - rewrite (count_occ_In pair_dec). destruct (count_occ pair_dec l p); split; intros; try lia; try congruence.
  - intros n. destruct (count_occ pair_dec l p); congruence.
Qed.
Lemma groups_partition shift four_pi convert s l : items_converted shift four_pi convert false s = Ok l -> distinct_lines l ->
  exists ret, linegroups shift four_pi convert s = Ok ret /\ NoDup (map fst ret) /\
    (forall g d, In (g, d) ret -> d <> [] /\ d = of_group g l) /\ (forall p, In p l -> exists d, In (k_group (fst p), d) ret).
Proof.
  intros E D. destruct (linegroups shift four_pi convert s) as [ret|e] eqn:G.
  - destruct (linegroups_spec _ _ _ _ _ G) as (l' & E' & H). assert (l' = l) as -> by congruence. exists ret. split; [reflexivity|]. now apply H.
  - unfold linegroups in G. rewrite E in G. discriminate.
Qed.
Lemma probabilities_units shift four_pi s d : sp_density s = Some d ->
  (sp_type s = Cross -> exists l, probabilities shift four_pi s = Ok l /\ Forall2 (fun p q => fst q = fst p /\ numbers (snd q) = map (fun x => x * (d / four_pi)) (numbers (snd p))) (items s) l) /\
  (sp_type s = DiffCross -> exists l, probabilities shift four_pi s = Ok l /\ Forall2 (fun p q => fst q = fst p /\ numbers (snd q) = map (fun x => x * d) (numbers (snd p))) (items s) l).
Proof.
  assert (forall m l, Forall2 (fun p q : line * value => fst q = fst p /\ numbers (snd q) = map (fun x => x * m) (numbers (snd p))) l (map (fun p => (fst p, scaled m (snd p))) l)) as F.
  { intros m. induction l as [|p l IH]; cbn [map]; constructor; [|assumption]. split; [reflexivity|]. apply numbers_scaled. }
  intros D. split; intros T; eexists; (split; [|apply F]); [now apply probabilities_cross|now apply probabilities_diff].
Qed.
Lemma largest_spec l : forall q, In (largest q l) (q :: l) /\ Forall (fun x => x <= largest q l) (q :: l).
Proof.
  induction l as [|x l IH]; intros q; cbn [largest]; [split; [now left|constructor; [apply Qcle_refl|constructor]]|].
  destruct (Qc_ltb q x) eqn:E.
  - apply Qc_ltb_lt in E. destruct (IH x) as [A B]. inversion B; subst. split; [now right|]. constructor; [|assumption]. apply Qclt_le_weak. eapply Qclt_le_trans; eassumption.
  - assert (x <= q) as L by (destruct (Qclt_le_dec q x) as [L|L]; [apply Qc_ltb_lt in L; congruence|assumption]). destruct (IH q) as [A B]. inversion B; subst. split.
    + destruct A as [A|A]; [now left|right; now right].
    + constructor; [assumption|]. constructor; [|assumption]. eapply Qcle_trans; eassumption.
Qed.
Lemma np_max_spec v m : np_max v = Ok m -> In m (numbers v) /\ Forall (fun x => x <= m) (numbers v).
Proof.
  unfold np_max. rewrite numbers_asarray. destruct (numbers v) as [|q l]; [discriminate|]. intros H. assert (m = largest q l) as -> by congruence. apply largest_spec.
Qed.
Lemma compton_energy shift p k e : k_kind k = Compton -> k_energy k = Scalar e -> 0 < e -> p <> 0 -> 0 <= shift p ->
  exists e', energy shift {| polar := Some p; azimuth := None |} k = Scalar e' /\ / e' = / e + shift p /\ 0 < e' /\ e' <= e.
Proof.
  intros K E Pe Np Ps. unfold energy. rewrite K, E. cbn [polar nonzero]. destruct (Qc_eqb p 0) eqn:Q; [apply Qc_eqb_spec in Q; congruence|].
  exists (compton (shift p) e). split; [reflexivity|]. split; [now apply compton_wavelength|]. destruct (Qclt_le_dec 0 (shift p)) as [L|L].
  - destruct (compton_bounds (shift p) e Pe L) as [A B]. split; [assumption|]. now apply Qclt_le_weak.
  - assert (shift p = 0) as -> by (apply Qcle_antisym; assumption). assert (compton 0 e = e) as -> by (unfold compton; field; discriminate). split; [assumption|apply Qcle_refl].
Qed.
Lemma energy_unchanged shift g k : polar g = None \/ polar g = Some 0 \/ k_kind k <> Compton -> energy shift g k = k_energy k.
Proof.
  intros [H|[H|H]]; unfold energy; [rewrite H; cbn; now destruct (k_kind k)|rewrite H; cbn; now destruct (k_kind k)|]. destruct (k_kind k); try reflexivity. congruence.
Qed.
Lemma groupspectra_never s u : groupspectra s <> Ok u.
Proof. unfold groupspectra. destruct (sp_detector s); discriminate. Qed.
Lemma energylimits_spec s a b : sp_xlim s = Some (a, b) -> energylimits s = Ok (mcazero s + mcagain s * Qc_of_Z (energytochannel s a), mcazero s + mcagain s * Qc_of_Z (energytochannel s b)).
Proof. intros X. unfold energylimits, channellimits. rewrite X. reflexivity. Qed.
Lemma calibration s g z : (sp_detector s = Some (g, z) -> mcagain s = g /\ mcazero s = z) /\ (sp_detector s = None -> mcagain s * Qc_of_Z 1000 = Qc_of_Z 5 /\ mcazero s = 0).
Proof.
  unfold mcagain, mcazero. split; intros ->; [auto|]. split; [|reflexivity]. apply Qc_is_canon. vm_compute. reflexivity.
Qed.
