From Verif Require Import BlissfitSpec BaseProofs.
From Coq Require Import Lia.
Local Open Scope string_scope.
Local Open Scope list_scope.
Local Open Scope nat_scope.

Lemma str_dec : decides_eq String.eqb.
Proof. intros x y. apply String.eqb_eq. Qed.
Lemma plus_length u v : List.length u = List.length v -> exists w, plus u v = Some w /\ List.length w = List.length u /\ forall k, nth k w 0%Qc = (nth k u 0 + nth k v 0)%Qc.
Proof.
  revert v. induction u as [|a u IH]; intros [|b v] H; try discriminate.
  - exists []. repeat split. intros [|k]; cbn; ring.
  - injection H as H. destruct (IH v H) as (w & E & L & N). exists ((a + b)%Qc :: w). cbn [plus]. rewrite E.
    split; [reflexivity|]. split; [cbn; now rewrite L|]. intros [|k]; cbn; [reflexivity|apply N].
Qed.
Lemma plus_none u v : List.length u <> List.length v -> plus u v = None.
Proof.
  revert v. induction u as [|a u IH]; intros [|b v] H; cbn in *; try reflexivity; [congruence|]. rewrite IH; [reflexivity|]. congruence.
Qed.
Definition step (o u : option (list Qc)) : option (list Qc) :=
  match o, u with Some a, Some b => match plus a b with Some w => Some w | None => Some a end | _, _ => o end.
Lemma value_assign out g sigs s w sigs0 : lookup String.eqb g out = Some sigs0 ->
  forall g' s', value (assign String.eqb g (assign String.eqb s w sigs) out) g' s' = if String.eqb g' g then if String.eqb s' s then Some w else lookup String.eqb s' sigs else value out g' s'.
Proof.
  intros H g' s'. unfold value. destruct (String.eqb_spec g' g) as [->|N].
  - rewrite (lookup_assign_same _ str_dec). destruct (String.eqb_spec s' s) as [->|N].
    + now rewrite (lookup_assign_same _ str_dec).
    + now rewrite (lookup_assign_other _ str_dec) by congruence.
  - now rewrite (lookup_assign_other _ str_dec) by congruence.
Qed.
Lemma add_signal_value out g sig g' s' :
  value (add_signal out g sig) g' s' = if (String.eqb g' g && String.eqb s' (fst sig))%bool then step (value out g' s') (Some (snd sig)) else value out g' s'.
Proof.
  unfold add_signal. destruct (lookup String.eqb g out) as [sigs|] eqn:E.
  2:{ destruct (String.eqb_spec g' g) as [->|]; [|reflexivity]. unfold value. rewrite E. cbn. destruct (String.eqb s' (fst sig)); reflexivity. }
  destruct (lookup String.eqb (fst sig) sigs) as [u|] eqn:F.
  2:{ destruct (String.eqb_spec g' g) as [->|]; [|reflexivity]. cbn. destruct (String.eqb_spec s' (fst sig)) as [->|]; [|reflexivity]. unfold value. now rewrite E, F. }
  destruct (plus u (snd sig)) as [w|] eqn:P.
  - rewrite (value_assign _ _ _ _ _ _ E). destruct (String.eqb_spec g' g) as [->|]; [|reflexivity]. cbn [andb].
    destruct (String.eqb_spec s' (fst sig)) as [->|].
    + unfold value. rewrite E, F. cbn. now rewrite P.
    + unfold value. now rewrite E.
  - destruct (String.eqb_spec g' g) as [->|]; [|reflexivity]. cbn [andb].
    destruct (String.eqb_spec s' (fst sig)) as [->|]; [|reflexivity]. unfold value. rewrite E, F. cbn. now rewrite P.
Qed.
Lemma add_signals_value sigs out g g' s' : NoDup (map fst sigs) ->
  value (fold_left (fun out sig => add_signal out g sig) sigs out) g' s' = if String.eqb g' g then step (value out g' s') (lookup String.eqb s' sigs) else value out g' s'.
Proof.
  revert out. induction sigs as [|[n u] sigs IH]; intros out H; cbn [fold_left].
  - cbn. destruct (value out g' s'), (String.eqb g' g); reflexivity.
  - cbn in H. inversion_clear H as [|? ? H1 H2]. rewrite IH by exact H2. rewrite add_signal_value. cbn [fst snd lookup].
    destruct (String.eqb g' g); [|reflexivity]. cbn [andb]. destruct (String.eqb_spec s' n) as [->|]; [|reflexivity].
    assert (lookup String.eqb n sigs = None) as ->; [|destruct (step (value out g' n) (Some u)); reflexivity].
    clear - H1. induction sigs as [|[m v] sigs IH]; [reflexivity|]. cbn in *. destruct (String.eqb_spec n m); [subst; tauto|]. apply IH. tauto.
Qed.
Lemma add_detector_value names out d g s : proper d -> NoDup names ->
  value (add_detector names out d) g s = if in_dec string_dec g names then step (value out g s) (value d g s) else value out g s.
Proof.
  intros Hp. unfold add_detector. revert out. induction names as [|n names IH]; intros out Hn; cbn [fold_left].
  - destruct (in_dec string_dec g []) as [[]|]. reflexivity.
  - inversion_clear Hn as [|? ? H1 H2]. rewrite IH by exact H2.
    assert (E : value (match lookup String.eqb n d with None => out | Some sigs => fold_left (fun out sig => add_signal out n sig) sigs out end) g s
      = if String.eqb g n then step (value out g s) (value d g s) else value out g s).
    { destruct (lookup String.eqb n d) as [sigs|] eqn:L.
      - rewrite add_signals_value by (apply (Hp n); exact L). destruct (String.eqb_spec g n) as [->|]; [|reflexivity]. unfold value at 3. now rewrite L.
      - destruct (String.eqb_spec g n) as [->|]; [|reflexivity]. unfold value at 3. rewrite L. destruct (value out n s); reflexivity. }
    rewrite E. destruct (String.eqb_spec g n) as [->|N].
    + destruct (in_dec string_dec n names); [contradiction|]. destruct (in_dec string_dec n (n :: names)) as [|X]; [reflexivity|]. exfalso. apply X. now left.
    + destruct (in_dec string_dec g names) as [I|I], (in_dec string_dec g (n :: names)) as [J|J]; try reflexivity.
      * exfalso. apply J. now right.
      * exfalso. destruct J; [congruence|contradiction].
Qed.
Lemma first_value names d g s : value (first_detector names d) g s = if in_dec string_dec g names then value d g s else None.
Proof.
  unfold value, first_detector. induction names as [|n names IH]; cbn [flat_map].
  - destruct (in_dec string_dec g []) as [[]|]. reflexivity.
  - destruct (in_dec string_dec g (n :: names)) as [J|J].
    + destruct (String.eqb_spec g n) as [->|N].
      * destruct (lookup String.eqb n d) as [sigs|] eqn:L; cbn [app lookup]; [now rewrite String.eqb_refl|].
        rewrite IH. destruct (in_dec string_dec n names); reflexivity.
      * destruct (in_dec string_dec g names) as [I|I]; [|exfalso; destruct J; [congruence|contradiction]].
        destruct (lookup String.eqb n d) as [sigs|] eqn:L; cbn [app lookup]; [|exact IH]. destruct (String.eqb_spec g n); [contradiction|exact IH].
    + destruct (in_dec string_dec g names) as [I|I]; [exfalso; apply J; now right|].
      assert (g <> n) by (intros ->; apply J; now left).
      destruct (lookup String.eqb n d) as [sigs|] eqn:L; cbn [app lookup]; [|exact IH]. destruct (String.eqb_spec g n); [contradiction|exact IH].
Qed.
Lemma fold_value names l out g s : Forall proper l -> NoDup names -> In g names ->
  value (fold_left (add_detector names) l out) g s = fold_left (fun o d => step o (value d g s)) l (value out g s).
Proof.
  intros H Hn Hg. revert out. induction H as [|d l H _ IH]; intros out; cbn [fold_left]; [reflexivity|].
  rewrite IH, add_detector_value by assumption. destruct (in_dec string_dec g names); [reflexivity|contradiction].
Qed.
Lemma fold_none l g s : fold_left (fun o d => step o (value d g s)) l None = None.
Proof. induction l; [reflexivity|]. exact IHl. Qed.
Lemma fold_some l g s v : exists w, fold_left (fun o d => step o (value d g s)) l (Some v) = Some w /\ List.length w = List.length v /\
  forall k, k < List.length v -> nth k w 0%Qc = (nth k v 0 + sum_over l g s (List.length v) k)%Qc.
Proof.
  revert v. induction l as [|d l IH]; intros v; cbn [fold_left sum_over].
  - exists v. repeat split. intros. ring.
  - destruct (value d g s) as [u|].
    + cbn [step]. destruct (Nat.eqb_spec (List.length u) (List.length v)) as [E|E].
      * destruct (plus_length v u (eq_sym E)) as (w & P & L & N). rewrite P. destruct (IH w) as (x & X1 & X2 & X3). exists x. split; [exact X1|]. split; [congruence|].
        intros k Hk. rewrite X3 by congruence. rewrite L, N. ring.
      * rewrite plus_none by congruence. destruct (IH v) as (x & X1 & X2 & X3). exists x. split; [exact X1|]. split; [exact X2|]. intros k Hk. rewrite X3 by exact Hk. ring.
    + cbn [step]. destruct (IH v) as (x & X1 & X2 & X3). exists x. split; [exact X1|]. split; [exact X2|]. intros k Hk. rewrite X3 by exact Hk. ring.
Qed.
Lemma merge_sum names d l : NoDup names -> Forall proper l -> exists out, merge names (d :: l) = Ok out /\
  (forall g s v, In g names -> value d g s = Some v -> exists w, value out g s = Some w /\ List.length w = List.length v /\
     forall k, k < List.length v -> nth k w 0%Qc = (nth k v 0 + sum_over l g s (List.length v) k)%Qc) /\
  (forall g s, In g names -> value d g s = None -> value out g s = None).
Proof.
  intros Hn Hp. eexists. split; [reflexivity|]. split.
  - intros g s v Hg Hv. rewrite fold_value, first_value by assumption. destruct (in_dec string_dec g names); [|contradiction]. rewrite Hv. apply fold_some.
  - intros g s Hg Hv. rewrite fold_value, first_value by assumption. destruct (in_dec string_dec g names); [|contradiction]. rewrite Hv. apply fold_none.
Qed.

Lemma classes l i : In i l -> (i_type i = Some "mca" -> In i (detectors l) /\ ~ In i (counters l)) /\ (i_type i <> Some "mca" -> In i (counters l) /\ ~ In i (detectors l)).
Proof.
  intros H. unfold detectors, counters. rewrite !filter_In. unfold is_mca. destruct (i_type i) as [t|].
  - destruct (String.eqb_spec t "mca") as [->|N]; cbn; split; intros E; split; try tauto; try congruence; intros [_ X]; discriminate.
  - cbn. split; intros E; [discriminate|]. split; [tauto|]. intros [_ X]; discriminate.
Qed.
Lemma configurations_spec {C} (cfgs : list C) n :
  (cfgs = [] -> configurations cfgs n = Ok (repeat None n)) /\
  (cfgs <> [] -> List.length cfgs = n -> configurations cfgs n = Ok (map Some cfgs)) /\
  (forall c, cfgs = [c] -> configurations cfgs n = Ok (repeat (Some c) n)) /\
  (1 < List.length cfgs -> List.length cfgs <> n -> configurations cfgs n = Err RuntimeError).
Proof.
  split; [intros ->; reflexivity|]. split.
  { intros H1 H2. destruct cfgs; [contradiction|]. unfold configurations. now rewrite H2, Nat.eqb_refl. }
  split.
  { intros c ->. unfold configurations. destruct (Nat.eqb_spec n (List.length [c])) as [->|]; reflexivity. }
  intros H1 H2. destruct cfgs as [|c [|c' r]]; cbn in H1; try lia. unfold configurations. destruct (Nat.eqb_spec n (List.length (c :: c' :: r))); [congruence|reflexivity].
Qed.
Lemma configurations_length {C} (cfgs : list C) n cs : configurations cfgs n = Ok cs -> List.length cs = n.
Proof.
  unfold configurations. destruct cfgs as [|c r]; [intros H; inversion H; apply repeat_length|].
  destruct (Nat.eqb_spec n (List.length (c :: r))) as [E|E]; [intros H; inversion H; rewrite E; cbn; now rewrite map_length|].
  destruct r; [|discriminate]. intros H; inversion H. apply repeat_length.
Qed.
Lemma lookup_app_none {V} k (a b : list (string * V)) : lookup String.eqb k a = None -> lookup String.eqb k (a ++ b) = lookup String.eqb k b.
Proof. induction a as [|[n v] a IH]; [reflexivity|]. cbn. destruct (String.eqb k n); [discriminate|exact IH]. Qed.
Lemma lookup_app_some {V} k (a b : list (string * V)) v : lookup String.eqb k a = Some v -> lookup String.eqb k (a ++ b) = Some v.
Proof. induction a as [|[n w] a IH]; [discriminate|]. cbn. destruct (String.eqb k n); [tauto|exact IH]. Qed.
Lemma lookup_in (k : list item) i : NoDup (map i_name k) -> In i k -> lookup String.eqb (i_name i) (map (fun i => (i_name i, i_data i)) k) = Some (i_data i).
Proof.
  induction k as [|j k IH]; intros Hn Hi; [destruct Hi|]. cbn in *. inversion_clear Hn as [|? ? H1 H2]. destruct Hi as [->|Hi].
  - now rewrite String.eqb_refl.
  - destruct (String.eqb_spec (i_name i) (i_name j)) as [E|]; [|auto]. exfalso. apply H1. rewrite <- E. now apply in_map.
Qed.
Lemma sum_same l g s v n k : Forall (fun d => value d g s = Some v) l -> List.length v = n -> sum_over l g s n k = (Qc_of_Z (Z.of_nat (List.length l)) * nth k v 0)%Qc.
Proof.
  intros H Hv. induction H as [|d l H _ IH]; cbn [sum_over List.length]; [replace (Qc_of_Z (Z.of_nat 0)) with 0%Qc by reflexivity; ring|].
  rewrite H, Hv, Nat.eqb_refl, IH. replace (Qc_of_Z (Z.of_nat (S (List.length l)))) with (1 + Qc_of_Z (Z.of_nat (List.length l)))%Qc; [ring|].
  replace (Z.of_nat (S (List.length l))) with (1 + Z.of_nat (List.length l))%Z by lia.
  apply Qc_is_canon. unfold Qcplus, Qc_of_Z, Q2Qc. cbn [this]. rewrite !Qred_correct, inject_Z_plus. reflexivity.
Qed.
Lemma names_nodup : NoDup ["parameters"; "massfractions"; "counters"].
Proof. repeat constructor; cbn; intuition discriminate. Qed.
Lemma counters_multiplied {C} (fit : C -> item -> groups) cfgs l cs i :
  configurations cfgs (List.length (detectors l)) = Ok cs -> detectors l <> [] -> In i l -> i_type i <> Some "mca" ->
  NoDup (map i_name (counters l)) -> (forall j j', In j (counters l) -> In j' (counters l) -> List.length (i_data j) = List.length (i_data j')) -> (forall c d, proper (fit c d) /\ lookup String.eqb "counters" (fit c d) = None) ->
  exists out w, execute fit cfgs l = Ok out /\ value out "counters" (i_name i) = Some w /\ List.length w = List.length (i_data i) /\
  forall k, k < List.length (i_data i) -> nth k w 0%Qc = (Qc_of_Z (Z.of_nat (List.length (detectors l))) * nth k (i_data i) 0)%Qc.
Proof.
  intros Hc Hd Hi Ht Hn Hs Hf. apply (classes l i Hi) in Ht as [Hk _].
  unfold execute. destruct (detectors l) as [|d0 ds] eqn:ED; [contradiction|]. rewrite Hc. cbn [bind].
  pose proof (configurations_length _ _ _ Hc) as Lc.
  destruct (counters l) as [|k0 ks]; [destruct Hk|]. cbv zeta.
  assert (forallb (fun i => List.length (i_data i) =? List.length (i_data k0)) (k0 :: ks) = true) as -> by (apply forallb_forall; intros j Hj; apply Nat.eqb_eq, Hs; [exact Hj|now left]).
  cbn [negb]. clear Hs. remember (k0 :: ks) as K eqn:EK. clear EK.
  set (fits := map _ (combine cs (d0 :: ds))).
  assert (Lf : List.length fits = List.length (d0 :: ds)) by (unfold fits; rewrite map_length, combine_length, Lc; apply Nat.min_id).
  assert (Pf : Forall (fun f => proper f /\ lookup String.eqb "counters" f = None) fits).
  { apply Forall_forall. intros f Hf'. apply in_map_iff in Hf' as ([[c|] d] & <- & _); [apply Hf|]. split; [intros g sigs H; discriminate H|reflexivity]. }
  set (ext := (fun f => f ++ [("counters", map (fun i => (i_name i, i_data i)) K)]) : groups -> groups).
  assert (Pe : Forall proper (map ext fits)).
  { apply Forall_forall. intros e He. apply in_map_iff in He as (f & <- & Hin). rewrite Forall_forall in Pf. destruct (Pf f Hin) as [P1 P2].
    intros g sigs H. unfold ext in H. destruct (lookup String.eqb g f) as [v|] eqn:E.
    - rewrite (lookup_app_some _ _ _ _ E) in H. assert (v = sigs) as <- by congruence. exact (P1 g v E).
    - rewrite lookup_app_none in H by exact E. cbn in H. destruct (String.eqb g "counters"); [|discriminate]. inversion H. rewrite map_map. exact Hn. }
  assert (Ve : Forall (fun e => value e "counters" (i_name i) = Some (i_data i)) (map ext fits)).
  { apply Forall_forall. intros e He. apply in_map_iff in He as (f & <- & Hin). rewrite Forall_forall in Pf. destruct (Pf f Hin) as [_ P2].
    unfold value, ext. rewrite lookup_app_none by exact P2. cbn [lookup]. rewrite String.eqb_refl. now apply lookup_in. }
  assert (Le : List.length (map ext fits) = List.length (d0 :: ds)) by now rewrite map_length.
  destruct (map ext fits) as [|e es] eqn:EE; [discriminate|].
  inversion Pe as [|? ? Pe1 Pe2]. inversion Ve as [|? ? Ve1 Ve2]. subst.
  destruct (merge_sum ["parameters"; "massfractions"; "counters"] e es names_nodup Pe2) as (out & M1 & M2 & _).
  destruct (M2 "counters" (i_name i) (i_data i)) as (w & W1 & W2 & W3); [cbn; tauto|exact Ve1|].
  exists out, w. split; [change (merge ["parameters"; "massfractions"; "counters"] (map ext fits) = Ok out); rewrite EE; exact M1|]. split; [exact W1|]. split; [exact W2|]. intros k Hk'. rewrite W3 by exact Hk'.
  rewrite (sum_same es "counters" (i_name i) (i_data i)) by auto. cbn [List.length] in Le. injection Le as Le.
  cbn [List.length]. rewrite <- Le. replace (Z.of_nat (S (List.length es))) with (1 + Z.of_nat (List.length es))%Z by lia.
  replace (Qc_of_Z (1 + Z.of_nat (List.length es))%Z) with (1 + Qc_of_Z (Z.of_nat (List.length es)))%Qc; [ring|].
  apply Qc_is_canon. unfold Qcplus, Qc_of_Z, Q2Qc. cbn [this]. rewrite !Qred_correct, inject_Z_plus. reflexivity.
Qed.
Lemma execute_fits {C} (fit : C -> item -> groups) cfgs l d c dets cs :
  detectors l = d :: dets -> counters l = [] -> configurations cfgs (S (List.length dets)) = Ok (Some c :: map Some cs) -> (forall c d, proper (fit c d)) ->
  exists out, execute fit cfgs l = Ok out /\
  forall g s, In g ["parameters"; "massfractions"] ->
  (forall v, value (fit c d) g s = Some v -> exists w, value out g s = Some w /\ List.length w = List.length v /\
     forall k, k < List.length v -> nth k w 0%Qc = (nth k v 0 + sum_over (map (fun cd => fit (fst cd) (snd cd)) (combine cs dets)) g s (List.length v) k)%Qc) /\
  (value (fit c d) g s = None -> value out g s = None).
Proof.
  intros Hd Hk Hc Hf. unfold execute. rewrite Hd, Hk. cbn [List.length]. rewrite Hc. cbn [bind combine map fst snd].
  assert (E : map (fun cd => match fst cd with Some c => fit c (snd cd) | None => [] end) (combine (map Some cs) dets) = map (fun cd => fit (fst cd) (snd cd)) (combine cs dets)).
  { clear. revert dets. induction cs as [|x cs IH]; intros [|y dets]; try reflexivity. cbn. now rewrite IH. }
  rewrite E. set (es := map _ (combine cs dets)).
  assert (Forall proper es) as P by (apply Forall_forall; intros e He; apply in_map_iff in He as (? & <- & _); apply Hf).
  assert (NoDup ["parameters"; "massfractions"]) as N by (repeat constructor; cbn; intuition discriminate).
  destruct (merge_sum _ (fit c d) es N P) as (out & M1 & M2 & M3). exists out. split; [exact M1|]. intros g s Hg. split; [intros v; now apply M2|now apply M3].
Qed.
Lemma execute_errors {C} (fit : C -> item -> groups) cfgs l : (detectors l = [] -> execute fit cfgs l = Err RuntimeError) /\
  (detectors l <> [] -> 1 < List.length cfgs -> List.length cfgs <> List.length (detectors l) -> execute fit cfgs l = Err RuntimeError).
Proof.
  split; [intros H; unfold execute; now rewrite H|]. intros H1 H2 H3. unfold execute. destruct (detectors l) as [|d ds]; [contradiction|].
  destruct (configurations_spec cfgs (List.length (d :: ds))) as (_ & _ & _ & E). now rewrite (E H2 H3).
Qed.
Lemma counters_shapes {C} (fit : C -> item -> groups) cfgs l cs j j' :
  configurations cfgs (List.length (detectors l)) = Ok cs -> detectors l <> [] -> In j (counters l) -> In j' (counters l) -> List.length (i_data j) <> List.length (i_data j') ->
  execute fit cfgs l = Err ValueError.
Proof.
  intros Hc Hd H1 H2 Hn. unfold execute. destruct (detectors l) as [|d ds]; [contradiction|]. rewrite Hc. cbn [bind].
  destruct (counters l) as [|k0 ks]; [destruct H1|].
  destruct (forallb (fun i => List.length (i_data i) =? List.length (i_data k0)) (k0 :: ks)) eqn:E; [|reflexivity].
  exfalso. rewrite forallb_forall in E. pose proof (E j H1) as E1. pose proof (E j' H2) as E2. apply Nat.eqb_eq in E1, E2. congruence.
Qed.
Lemma value_ext (f : groups) x g s : g <> "counters" -> value (f ++ [("counters", x)]) g s = value f g s.
Proof.
  intros N. unfold value. destruct (lookup String.eqb g f) as [v|] eqn:E; [now rewrite (lookup_app_some _ _ _ _ E)|].
  rewrite lookup_app_none by exact E. cbn. destruct (String.eqb_spec g "counters"); [contradiction|reflexivity].
Qed.
Lemma sum_ext (l : list groups) x g s n k : g <> "counters" -> sum_over (map (fun f => f ++ [("counters", x)]) l) g s n k = sum_over l g s n k.
Proof. intros N. induction l as [|f l IH]; [reflexivity|]. cbn [map sum_over]. now rewrite value_ext, IH. Qed.
Lemma execute_fits_counters {C} (fit : C -> item -> groups) cfgs l d c dets cs :
  detectors l = d :: dets -> NoDup (map i_name (counters l)) -> (forall j j', In j (counters l) -> In j' (counters l) -> List.length (i_data j) = List.length (i_data j')) ->
  configurations cfgs (S (List.length dets)) = Ok (Some c :: map Some cs) -> (forall c d, proper (fit c d)) ->
  exists out, execute fit cfgs l = Ok out /\
  forall g s, In g ["parameters"; "massfractions"] ->
  (forall v, value (fit c d) g s = Some v -> exists w, value out g s = Some w /\ List.length w = List.length v /\
     forall k, k < List.length v -> nth k w 0%Qc = (nth k v 0 + sum_over (map (fun cd => fit (fst cd) (snd cd)) (combine cs dets)) g s (List.length v) k)%Qc) /\
  (value (fit c d) g s = None -> value out g s = None).
Proof.
  intros Hd Hn Hs Hc Hf. destruct (counters l) as [|k0 ks] eqn:EK; [now apply execute_fits|].
  unfold execute. rewrite Hd, EK. cbn [List.length]. rewrite Hc. cbn [bind combine map fst snd]. cbv zeta.
  assert (E : map (fun cd => match fst cd with Some c => fit c (snd cd) | None => [] end) (combine (map Some cs) dets) = map (fun cd => fit (fst cd) (snd cd)) (combine cs dets)).
  { clear. revert dets. induction cs as [|x cs IH]; intros [|y dets]; try reflexivity. cbn. now rewrite IH. }
  rewrite E.
  assert (forallb (fun i => List.length (i_data i) =? List.length (i_data k0)) (k0 :: ks) = true) as -> by (apply forallb_forall; intros j Hj; apply Nat.eqb_eq, Hs; [exact Hj|now left]).
  cbn [negb]. remember (map (fun i => (i_name i, i_data i)) (k0 :: ks)) as x eqn:Ex.
  change ((i_name k0, i_data k0) :: map (fun i => (i_name i, i_data i)) ks) with (map (fun i => (i_name i, i_data i)) (k0 :: ks)). rewrite <- Ex.
  set (es := map _ (combine cs dets)).
  assert (Forall proper (map (fun f => f ++ [("counters", x)]) es)) as P.
  { apply Forall_forall. intros e He. apply in_map_iff in He as (f & <- & Hin). apply in_map_iff in Hin as (cd & <- & _). intros g sigs H.
    destruct (lookup String.eqb g (fit (fst cd) (snd cd))) as [v|] eqn:F.
    - rewrite (lookup_app_some _ _ _ _ F) in H. assert (v = sigs) as <- by congruence. exact (Hf _ _ g v F).
    - rewrite lookup_app_none in H by exact F. cbn in H. destruct (String.eqb g "counters"); [|discriminate]. assert (x = sigs) as <- by congruence. rewrite Ex, map_map. exact Hn. }
  destruct (merge_sum ["parameters"; "massfractions"; "counters"] (fit c d ++ [("counters", x)]) _ names_nodup P) as (out & M1 & M2 & M3).
  exists out. split; [exact M1|]. intros g s Hg.
  assert (In g ["parameters"; "massfractions"; "counters"] /\ g <> "counters") as [Hg' Hg''] by (cbn in *; destruct Hg as [<-|[<-|[]]]; split; [tauto|discriminate|tauto|discriminate]).
  split.
  - intros v Hv. destruct (M2 g s v Hg') as (w & W1 & W2 & W3); [now rewrite value_ext|]. exists w. split; [exact W1|]. split; [exact W2|]. intros k Hk. rewrite W3 by exact Hk. now rewrite sum_ext.
  - intros Hv. apply M3; [exact Hg'|]. now rewrite value_ext.
Qed.
