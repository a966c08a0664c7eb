From Verif Require Export SumdetProofs.
Local Open Scope list_scope.
Local Open Scope nat_scope.

Lemma numbers_aslist i ns : numbers i = Some ns -> aslist i = map DNum ns.
Proof.
  destruct i as [[n|n|]|l]; cbn [numbers aslist]; intro H; try discriminate.
  - assert (ns = [n]) as -> by congruence. reflexivity.
  - revert ns H. induction l as [|d l IH]; intros ns H; cbn [fold_right] in H; [assert (ns = []) as -> by congruence; reflexivity|].
    destruct d; try discriminate. destruct (fold_right _ _ l) as [r|] eqn:E; [|discriminate]. assert (ns = n :: r) as -> by congruence. cbn [map]. rewrite <- (IH r eq_refl). reflexivity.
Qed.
Lemma numbers_flat i ns : numbers i = Some ns -> (match i with IDet d => [d] | IList l => l end) = map DNum ns.
Proof. intro H. rewrite <- (numbers_aslist i ns H). destruct i as [[n|n|]|l]; try reflexivity. discriminate. Qed.
Lemma flat_numbers include Ns : map numbers include = map Some Ns -> flat include = map DNum (concat Ns).
Proof.
  revert Ns. induction include as [|i include IH]; intros [|ns Ns] H; try discriminate; [reflexivity|]. cbn [map] in H. assert (numbers i = Some ns /\ map numbers include = map Some Ns) as [H1 H2] by (split; congruence).
  unfold flat in *. cbn [flat_map concat]. rewrite (numbers_flat i ns H1), map_app, <- (IH Ns H2). reflexivity.
Qed.
Lemma filter_present l (present : list det) : (forall d, In d l -> In d present) -> filter (fun d => existsb (det_eqb d) present) l = l.
Proof.
  induction l as [|d l IH]; intro H; [reflexivity|]. cbn [filter].
  assert (existsb (det_eqb d) present = true) as -> by (apply existsb_exists; exists d; split; [apply H; left; reflexivity|destruct d; cbn; [apply Z.eqb_refl|apply Z.eqb_refl|reflexivity]]).
  rewrite IH by (intros x Hx; apply H; right; exact Hx). reflexivity.
Qed.
Lemma enumerated_numbers include Ns : map numbers include = map Some Ns ->
  enumerated include = map (fun p => (Sums (Z.of_nat (fst p)), map DNum (snd p))) (numbered Ns).
Proof.
  intro H. unfold enumerated, numbered. assert (List.length include = List.length Ns) as -> by (rewrite <- (map_length numbers), H, map_length; reflexivity).
  generalize 1. revert Ns H. induction include as [|i include IH]; intros [|ns Ns] H o; try discriminate; [reflexivity|].
  cbn [map] in H. assert (numbers i = Some ns /\ map numbers include = map Some Ns) as [H1 H2] by (split; congruence).
  cbn [List.length seq combine map fst snd]. rewrite (numbers_aslist i ns H1). f_equal. apply IH, H2.
Qed.
Lemma mapM_group ns : mapM group_of (map DNum ns) = Ok (map Det ns).
Proof. induction ns as [|n ns IH]; [reflexivity|]. cbn [map mapM group_of bind]. rewrite IH. reflexivity. Qed.
Lemma assign_new k (v : key) s : ~ In k (map fst s) -> assign key_eqb k v s = s ++ [(k, v)].
Proof.
  induction s as [|[k' v'] s IH]; intro H; [reflexivity|]. cbn [assign app]. rewrite key_eqb_neq by (intros ->; apply H; left; reflexivity). f_equal. apply IH. intro X. apply H. right. exact X.
Qed.
Lemma assign_all_new dest l s : NoDup l -> (forall k, In k l -> ~ In k (map fst s)) -> assign_all dest l s = s ++ map (fun k => (k, dest)) l.
Proof.
  revert s. induction l as [|k l IH]; intros s ND H; [cbn; rewrite app_nil_r; reflexivity|]. inversion ND; subst. cbn [assign_all map]. rewrite assign_new by (apply H; left; reflexivity).
  rewrite IH; [rewrite <- app_assoc; reflexivity|assumption|]. intros k' Hk'. rewrite map_app. cbn [map fst]. intro X. apply in_app_or in X. destruct X as [X|[X|[]]]; [apply (H k' (or_intror Hk') X)|]. subst k'. contradiction.
Qed.
Lemma to_groups_ok P s : NoDup (flat_map snd P) -> (forall x, In x (flat_map snd P) -> ~ In (Det x) (map fst s)) ->
  to_groups (map (fun p => (Sums (Z.of_nat (fst p)), map DNum (snd p))) P) s = Ok (s ++ flat_map singles P).
Proof.
  revert s. induction P as [|[i ns] P IH]; intros s ND H; [cbn; rewrite app_nil_r; reflexivity|]. cbn [map to_groups fst snd]. rewrite mapM_group. cbn [bind].
  cbn [flat_map snd] in ND, H. 
  assert (NoDup ns /\ NoDup (flat_map snd P) /\ forall x, In x ns -> ~ In x (flat_map snd P)) as (N1 & N2 & N3).
  { clear -ND. induction ns as [|x ns IH]; [split; [constructor|split; [exact ND|intros ? []]]|]. cbn [app] in ND. inversion ND as [|? ? Nx ND']; subst. destruct (IH ND') as (A & B & C).
    split; [constructor; [intro X; apply Nx, in_or_app; left; exact X|exact A]|]. split; [exact B|]. intros y [<-|Hy]; [intro X; apply Nx, in_or_app; right; exact X|apply C, Hy]. }
  rewrite assign_all_new.
  - rewrite IH; [|exact N2|].
    + cbn [flat_map]. unfold singles at 2. cbn [fst snd]. rewrite map_map, <- app_assoc. reflexivity.
    + intros x Hx. rewrite map_app. intro X. apply in_app_or in X. destruct X as [X|X]; [apply (H x); [apply in_or_app; right; exact Hx|exact X]|].
      rewrite !map_map in X. cbn [fst] in X. apply in_map_iff in X. destruct X as (y & E & Hy). assert (y = x) as -> by congruence. apply (N3 x Hy Hx).
  - clear -N1. induction N1 as [|x l Hx N IH]; [constructor|]. cbn [map]. constructor; [|exact IH]. intro X. apply in_map_iff in X. destruct X as (y & E & Hy). assert (y = x) as -> by congruence. contradiction.
  - intros k Hk. apply in_map_iff in Hk. destruct Hk as (x & <- & Hx). apply H. apply in_or_app. left. exact Hx.
Qed.
Lemma numbered_snd {B} (Ns : list (list B)) : flat_map snd (numbered Ns) = concat Ns.
Proof.
  unfold numbered. generalize 1. induction Ns as [|ns Ns IH]; intro o; [reflexivity|]. cbn [List.length seq combine flat_map snd concat]. rewrite IH. reflexivity.
Qed.
Lemma numbered_fst {B} (l : list B) : map fst (numbered l) = seq 1 (List.length l).
Proof.
  unfold numbered. generalize 1. induction l as [|x l IH]; intro o; [reflexivity|]. cbn [List.length seq combine map fst]. rewrite IH. reflexivity.
Qed.
Lemma zmax_spec l m : zmax l = Some m -> In m l /\ forall x, In x l -> (x <= m)%Z.
Proof.
  revert m. induction l as [|x l IH]; intros m H; [discriminate|]. cbn [zmax] in H. destruct (zmax l) as [y|] eqn:E.
  - assert (m = Z.max x y) as -> by congruence. destruct (IH y eq_refl) as [I U]. split; [destruct (Z.max_spec x y) as [[_ ->]|[_ ->]]; [right; exact I|left; reflexivity]|].
    intros z [<-|Hz]; [lia|]. specialize (U z Hz). lia.
  - assert (m = x) as -> by congruence. split; [left; reflexivity|]. destruct l; [|cbn [zmax] in E; destruct (zmax l); discriminate]. intros z [<-|[]]. lia.
Qed.
Lemma zmax_some l : l <> [] -> exists m, zmax l = Some m.
Proof. destruct l; [contradiction|]. intros _. cbn [zmax]. destruct (zmax l); eexists; reflexivity. Qed.
Lemma max_bound l m : NoDup l -> (forall x, In x l -> (0 <= x)%Z) -> zmax l = Some m -> (Z.of_nat (List.length l) <= m + 1)%Z.
Proof.
  intros ND Pos M. destruct (zmax_spec l m M) as [I U]. specialize (Pos m I) as Pm.
  assert (List.length l <= List.length (map Z.of_nat (seq 0 (Z.to_nat (m + 1))))) as H.
  { apply NoDup_incl_length; [exact ND|]. intros x Hx. apply in_map_iff. exists (Z.to_nat x). specialize (Pos x Hx). specialize (U x Hx). split; [lia|]. apply in_seq. lia. }
  rewrite map_length, seq_length in H. lia.
Qed.
Lemma concat_long {B} (Ns : list (list B)) : Forall (fun ns => ns <> []) Ns -> Exists (fun ns => 2 <= List.length ns) Ns -> List.length Ns < List.length (concat Ns).
Proof.
  assert (forall L : list (list B), Forall (fun ns => ns <> []) L -> List.length L <= List.length (concat L)) as W.
  { induction 1 as [|ns L H F IH]; [cbn; lia|]. cbn [concat List.length]. rewrite app_length. destruct ns; [contradiction|]. cbn [List.length]. lia. }
  intros F E. induction E as [ns Ns H|ns Ns E IH]; inversion F; subst; cbn [concat List.length]; rewrite app_length.
  - specialize (W Ns H3). lia.
  - specialize (IH H2). destruct ns; [contradiction|]. cbn [List.length]. lia.
Qed.
Lemma singles_number P : map (fun x => number (fst x)) (flat_map singles P) = flat_map snd P.
Proof.
  induction P as [|p P IH]; [reflexivity|]. cbn [flat_map]. rewrite map_app, IH. f_equal. unfold singles. rewrite map_map. cbn [fst number]. apply map_id.
Qed.
Lemma singles_keys P : map fst (flat_map singles P) = map Det (flat_map snd P).
Proof. induction P as [|p P IH]; [reflexivity|]. cbn [flat_map]. rewrite !map_app, IH. f_equal. unfold singles. rewrite map_map. reflexivity. Qed.
Lemma map_inj_NoDup {B C} (f : B -> C) l : (forall x y, f x = f y -> x = y) -> NoDup l -> NoDup (map f l).
Proof.
  intro Inj. induction 1 as [|x l Hx N IH]; [constructor|]. cbn [map]. constructor; [|exact IH]. intro X. apply in_map_iff in X. destruct X as (y & E & Hy). apply Inj in E. subst. contradiction.
Qed.
Lemma prepare_groups include present Ns add before : map numbers include = map Some Ns -> NoDup (concat Ns) -> (forall x, In x (concat Ns) -> (0 <= x)%Z /\ In (DNum x) present) ->
  Forall (fun ns => ns <> []) Ns -> Exists (fun ns => 2 <= List.length ns) Ns -> 2 <= List.length Ns ->
  exists m, (forall x, In x (concat Ns) -> (x <= m)%Z) /\ In m (concat Ns) /\ (Z.of_nat (List.length Ns) <= m)%Z /\
  prepare include present add before =
    Ok (Plan (map (fun p => (Sums (Z.of_nat (fst p)), map DNum (snd p))) (numbered Ns)) before
          (if before then map (fun i => Sums (Z.of_nat i)) (seq 1 (List.length Ns)) else map Det (concat Ns))
          (flat_map singles (numbered Ns) ++ (if add then map (fun i => (Sums (Z.of_nat i), Sums (m + 1))) (seq 1 (List.length Ns)) else []))).
Proof.
  intros HN ND HP NE E2 G2. pose proof (concat_long Ns NE E2) as CL.
  destruct (zmax_some (concat Ns)) as [m M]; [intro X; rewrite X in CL; cbn in CL; lia|].
  pose proof (max_bound (concat Ns) m ND (fun x Hx => proj1 (HP x Hx)) M) as MB. destruct (zmax_spec _ m M) as [MI MU]. exists m. split; [exact MU|]. split; [exact MI|]. split; [lia|].
  unfold prepare. rewrite (flat_numbers include Ns HN).
  assert (match map DNum (concat Ns) with [] => present | l => filter (fun d => existsb (det_eqb d) present) l end = map DNum (concat Ns)) as ->.
  { pose proof (filter_present (map DNum (concat Ns)) present) as FP. specialize (FP ltac:(intros d Hd; apply in_map_iff in Hd; destruct Hd as (x & <- & Hx); apply (HP x Hx))).
    destruct (concat Ns); [cbn in CL; lia|exact FP]. }
  assert (existsb (fun i => 1 <? List.length (aslist i)) include = true) as ->.
  { clear -HN E2. revert include HN. induction E2 as [ns Ns H|ns Ns E IH]; intros [|i include] HN; try discriminate; cbn [map] in HN; assert (numbers i = Some ns /\ map numbers include = map Some Ns) as [H1 H2] by (split; congruence); cbn [existsb].
    - rewrite (numbers_aslist i ns H1), map_length. destruct (1 <? List.length ns) eqn:B; [reflexivity|]. apply Nat.ltb_ge in B. lia.
    - rewrite (IH include H2). apply orb_true_r. }
  cbn [bind]. rewrite (enumerated_numbers include Ns HN), !map_length.
  assert (List.length (numbered Ns) = List.length Ns) as LN by (unfold numbered; rewrite combine_length, seq_length; lia). rewrite LN.
  assert (1 <? List.length Ns = true) as -> by (apply Nat.ltb_lt; lia). assert (1 <? List.length (concat Ns) = true) as -> by (apply Nat.ltb_lt; lia).
  rewrite orb_true_r. cbn [andb orb].
  assert (map fst (map (fun p : nat * list Z => (Sums (Z.of_nat (fst p)), map DNum (snd p))) (numbered Ns)) = map (fun i => Sums (Z.of_nat i)) (seq 1 (List.length Ns))) as EG.
  { rewrite map_map. cbn [fst]. rewrite <- (numbered_fst Ns), map_map. reflexivity. }
  rewrite EG. assert ((if before then Ok (map (fun i => Sums (Z.of_nat i)) (seq 1 (List.length Ns))) else mapM group_of (map DNum (concat Ns))) = Ok (if before then map (fun i => Sums (Z.of_nat i)) (seq 1 (List.length Ns)) else map Det (concat Ns))) as -> by (destruct before; [reflexivity|apply mapM_group]).
  cbn [bind]. rewrite to_groups_ok; [|rewrite numbered_snd; exact ND|intros x _ []]. cbn [app bind]. destruct add; cbn [bind].
  - rewrite singles_number, numbered_snd, M. cbn [bind]. rewrite assign_all_new; [rewrite map_map; reflexivity| |].
    + apply map_inj_NoDup; [intros x y E; assert (Z.of_nat x = Z.of_nat y) by congruence; lia|apply seq_NoDup].
    + intros k Hk. rewrite singles_keys. apply in_map_iff in Hk. destruct Hk as (i & <- & _). intro X. apply in_map_iff in X. destruct X as (y & E & _). discriminate.
  - rewrite app_nil_r. reflexivity.
Qed.
Lemma prepare_flat include present N add before : include = map (fun x => IDet (DNum x)) N /\ (N = [] -> present = []) /\ (forall x, In x N -> In (DNum x) present) \/ include = [] /\ present = map DNum N ->
  NoDup N ->
  prepare include present add before =
    Ok (Plan [(Sums 1, map DNum N)] ((1 <? List.length N) && add && before)
          (if (1 <? List.length N) && add && before then [Sums 1] else map Det N)
          (if (1 <? List.length N) && add then map (fun x => (Det x, Sums 1)) N else [])).
Proof.
  intros H ND. unfold prepare.
  assert (match flat include with [] => present | l => filter (fun d => existsb (det_eqb d) present) l end = map DNum N) as ->.
  { destruct H as [(-> & H0 & H)|[-> ->]]; [|reflexivity].
    assert (flat (map (fun x => IDet (DNum x)) N) = map DNum N) as -> by (unfold flat; rewrite flat_map_concat_map, map_map; clear; induction N as [|x N IH]; [reflexivity|]; cbn [map concat app]; rewrite IH; reflexivity).
    pose proof (filter_present (map DNum N) present) as FP. specialize (FP ltac:(intros d Hd; apply in_map_iff in Hd; destruct Hd as (x & <- & Hx); apply H, Hx)).
    destruct N; [rewrite (H0 eq_refl); reflexivity|exact FP]. }
  assert (existsb (fun i => 1 <? List.length (aslist i)) include = false) as ->.
  { destruct H as [(-> & _)|[-> _]]; [|reflexivity]. clear. induction N as [|x N IH]; [reflexivity|]. cbn [map existsb]. exact IH. }
  rewrite mapM_group. cbn [bind].
  assert (filter issum (map Det N) = []) as -> by (clear; induction N as [|x N IH]; [reflexivity|exact IH]). cbn [map zmax bind List.length]. rewrite map_length. change (1 <? 1) with false. cbn [orb andb fst]. rewrite orb_false_r.
  assert ((if (1 <? List.length N) && add && before then Ok [Sums 1] else Ok (map Det N)) = Ok (if (1 <? List.length N) && add && before then [Sums 1] else map Det N)) as -> by (destruct ((1 <? List.length N) && add && before); reflexivity).
  cbn [bind]. destruct ((1 <? List.length N) && add); [|reflexivity]. cbn [to_groups]. rewrite mapM_group. cbn [bind].
  rewrite assign_all_new; [rewrite map_map; reflexivity|apply map_inj_NoDup; [intros x y E; congruence|exact ND]|intros ? _ []].
Qed.
(* the total of groups *)
Lemma numbered_in {B} (Ns : list B) i ns : In (i, ns) (numbered Ns) -> 1 <= i <= List.length Ns.
Proof. intro H. apply (in_map fst) in H. rewrite numbered_fst in H. apply in_seq in H. cbn [fst] in H. lia. Qed.
Lemma singles_snd P D : In D (map snd (flat_map singles P)) -> exists i, In i (map fst P) /\ D = Sums (Z.of_nat i).
Proof.
  intro H. apply in_map_iff in H. destruct H as ([k d] & <- & H). apply in_flat_map in H. destruct H as ([i ns] & H1 & H2). unfold singles in H2. apply in_map_iff in H2. destruct H2 as (x & E & _). cbn [fst snd] in *.
  exists i. split; [apply (in_map fst) in H1; exact H1|congruence].
Qed.
Section Total.
Context {A : Type}.
Definition result_of (s : stacks A) (k : string) (x : Z) : list (list (arg A)) := match view s (Det x) k with Some a => [a] | None => [] end.
Lemma contributions_singles (s : stacks A) P i k : NoDup (map fst P) ->
  contributions s (flat_map singles P) (Sums (Z.of_nat i)) k = flat_map (fun p => if i =? fst p then flat_map (result_of s k) (snd p) else []) P.
Proof.
  intros _. unfold contributions. induction P as [|[j ns] P IH]; [reflexivity|]. cbn [flat_map]. rewrite flat_map_app, IH. f_equal. unfold singles. cbn [fst snd].
  induction ns as [|x ns IHn]; [cbn; destruct (i =? j); reflexivity|]. cbn [map flat_map fst snd]. rewrite IHn. cbn [key_eqb].
  destruct (Nat.eqb_spec i j) as [-> |Ne]; [rewrite Z.eqb_refl; reflexivity|]. assert (Z.of_nat j =? Z.of_nat i = false)%Z as -> by (apply Z.eqb_neq; lia). reflexivity.
Qed.
Lemma groups_once {B C} (f : B -> list C) (P : list (nat * list B)) : NoDup (map fst P) ->
  flat_map (fun i => flat_map (fun p => if i =? fst p then flat_map f (snd p) else []) P) (map fst P) = flat_map f (flat_map snd P).
Proof.
  assert (forall j (Q : list (nat * list B)), ~ In j (map fst Q) -> flat_map (fun p => if j =? fst p then flat_map f (snd p) else []) Q = []) as Z0.
  { intros j Q. induction Q as [|[i l] Q IH]; intro H; [reflexivity|]. cbn [flat_map fst snd]. destruct (Nat.eqb_spec j i) as [-> |_]; [exfalso; apply H; left; reflexivity|]. apply IH. intro X. apply H. right. exact X. }
  induction P as [|[j l] P IH]; intro ND; [reflexivity|]. cbn [map fst] in ND. inversion ND as [|? ? Nj ND']; subst. cbn [map fst flat_map snd]. rewrite Nat.eqb_refl, flat_map_app. rewrite (Z0 j P Nj), app_nil_r. f_equal.
  rewrite <- (IH ND'). rewrite !flat_map_concat_map. f_equal. apply map_ext_in. intros i Hi. destruct (Nat.eqb_spec i j) as [-> |_]; [contradiction|reflexivity].
Qed.
Lemma total_of_groups counters n (s : stacks A) Ns m : dict s -> NoDup (concat Ns) -> (forall x, In x (concat Ns) -> (x <= m)%Z) -> (Z.of_nat (List.length Ns) <= m)%Z ->
  (forall i, lookup key_eqb (Sums i) s = None) -> (forall x k a, In x (concat Ns) -> view s (Det x) k = Some a -> List.length a = n) ->
  exists s', add_detectors counters n s (flat_map singles (numbered Ns) ++ map (fun i => (Sums (Z.of_nat i), Sums (m + 1))) (seq 1 (List.length Ns))) = Ok s' /\
    (forall x, In x (concat Ns) -> lookup key_eqb (Det x) s' = None) /\
    (forall i, 1 <= i <= List.length Ns -> lookup key_eqb (Sums (Z.of_nat i)) s' = None) /\
    (forall k, view s' (Sums (m + 1)) k =
       match flat_map (fun x => match view s (Det x) k with Some a => [a] | None => [] end) (concat Ns) with
       | [] => None
       | cs => Some (built (func_of counters k) n cs)
       end).
Proof.
  intros Ds ND MU MG SN Cp. set (l1 := flat_map singles (numbered Ns)). set (l2 := map (fun i => (Sums (Z.of_nat i), Sums (m + 1))) (seq 1 (List.length Ns))).
  assert (map fst l1 = map Det (concat Ns)) as K1 by (unfold l1; rewrite singles_keys, numbered_snd; reflexivity).
  assert (map fst l2 = map (fun i => Sums (Z.of_nat i)) (seq 1 (List.length Ns))) as K2 by (unfold l2; rewrite map_map; reflexivity).
  assert (forall z, ~ In (Sums z) (map fst l1)) as S1 by (intros z X; rewrite K1 in X; apply in_map_iff in X; destruct X as (x & E & _); discriminate).
  assert (~ In (Sums (m + 1)) (map fst l2)) as T2 by (rewrite K2; intro X; apply in_map_iff in X; destruct X as (i & E & Hi); apply in_seq in Hi; assert (Z.of_nat i = m + 1)%Z by congruence; lia).
  destruct (add_two_levels counters n s l1 l2 (Sums (m + 1)) Ds) as (s' & E & R & V).
  - split; [rewrite K1; apply map_inj_NoDup; [intros x y H; congruence|exact ND]|]. intros k d Hin. apply (in_map snd) in Hin. cbn [snd] in Hin. apply singles_snd in Hin. destruct Hin as (i & _ & ->). apply S1.
  - split; [rewrite K2; apply map_inj_NoDup; [intros x y H; assert (Z.of_nat x = Z.of_nat y) by congruence; lia|apply seq_NoDup]|].
    intros k d Hin. unfold l2 in Hin. apply in_map_iff in Hin. destruct Hin as (i & H & _). assert (d = Sums (m + 1)) as -> by congruence. exact T2.
  - intros k1 k a Hin. rewrite K1 in Hin. apply in_map_iff in Hin. destruct Hin as (x & <- & Hx). apply Cp, Hx.
  - intros g D Hin. unfold l2 in Hin. apply in_map_iff in Hin. destruct Hin as (i & H & _). assert (g = Sums (Z.of_nat i) /\ D = Sums (m + 1)) as [-> ->] by (split; congruence). split; [reflexivity|]. split; [apply S1|apply SN].
  - apply S1.
  - intro X. apply singles_snd in X. destruct X as (i & Hi & H). rewrite numbered_fst in Hi. apply in_seq in Hi. assert (Z.of_nat i = m + 1)%Z by congruence. lia.
  - exact T2.
  - apply SN.
  - exists s'. split; [exact E|]. split; [intros x Hx; apply R; left; rewrite K1; apply in_map, Hx|]. split; [intros i Hi; apply R; right; rewrite K2; apply (in_map (fun i => Sums (Z.of_nat i))), in_seq; lia|].
    intro k. rewrite V. assert (flat_map (fun g => contributions s l1 g k) (map fst l2) = flat_map (result_of s k) (concat Ns)) as EC.
    { rewrite K2. rewrite <- (numbered_fst Ns), <- (numbered_snd Ns). rewrite <- (groups_once (result_of s k) (numbered Ns)) by (rewrite numbered_fst; apply seq_NoDup).
      rewrite !flat_map_concat_map, map_map. f_equal. apply map_ext. intro i. apply contributions_singles. rewrite numbered_fst. apply seq_NoDup. }
    rewrite EC. unfold result_of. reflexivity.
Qed.
End Total.

(* ---- values of sums ---- *)
Section Values.
Context {A : Type}.
Variable leaf : A -> result num.
Variable fluxref flux : nat -> result num.
Variable dtcor : nat -> Z -> num.
Variable other : nat -> list num -> result num.
Let value := eval A leaf fluxref flux dtcor other.
Lemma n_sum_fin qs : n_sum (map Fin qs) = Fin (fold_right Qcplus 0%Qc qs).
Proof.
  induction qs as [|q qs IH]; [reflexivity|]. change (map Fin (q :: qs)) with ([Fin q] ++ map Fin qs). rewrite n_sum_app, n_sum_one, IH. reflexivity.
Qed.
Lemma sum_of_members i dt r w c (es : list (key * arg A)) qs : fluxref i = Ok (Fin r) -> flux i = Ok (Fin w) -> r <> 0%Qc -> w <> 0%Qc ->
  Forall2 (fun e q => value (snd e) = Ok (Fin q) /\ dtcor i (number (fst e)) = Fin (c (fst e))) es qs ->
  (let! xs := mapM (fun e => let! y := value (snd e) in xrfnorm fluxref flux dtcor i true (dt_of dt (fst e)) y) es in apply fluxref flux dtcor other Fsum xs) =
  Ok (Fin (fold_right Qcplus 0%Qc (map (fun eq => snd eq * (r / w) * (if dt && negb (issum (fst (fst eq))) then c (fst (fst eq)) else 1))%Qc (combine es qs)))).
Proof.
  intros Hr Hw Nr Nw F.
  assert (mapM (fun e => let! y := value (snd e) in xrfnorm fluxref flux dtcor i true (dt_of dt (fst e)) y) es =
    Ok (map Fin (map (fun eq => snd eq * (r / w) * (if dt && negb (issum (fst (fst eq))) then c (fst (fst eq)) else 1))%Qc (combine es qs)))) as ->.
  { induction F as [|[d a] q es qs [H1 H2] F IH]; [reflexivity|]. cbn [mapM combine map fst snd] in *. rewrite H1, IH. cbn [bind]. unfold xrfnorm. rewrite Hr, Hw. cbn [bind].
    assert (Qc_eqb r 0 = false) as -> by (apply Qc_eqb_false; exact Nr). assert (Qc_eqb w 0 = false) as Ew by (apply Qc_eqb_false; exact Nw). rewrite !Ew. cbn [bind n_div]. rewrite Ew. cbn [n_mul].
    unfold dt_of. destruct (dt && negb (issum d)); cbn [bind n_mul]; [rewrite H2|]; reflexivity. }
  cbn [bind apply]. rewrite n_sum_fin. reflexivity.
Qed.
End Values.
Lemma fit_rows_length {B} (zero : B) n rows : List.length (fit_rows zero n rows) = n.
Proof.
  unfold fit_rows. destruct (List.length rows <? n) eqn:E; [apply Nat.ltb_lt in E; rewrite app_length, repeat_length; lia|]. apply Nat.ltb_ge in E.
  destruct (n <? List.length rows) eqn:E2; [rewrite firstn_length; lia|]. apply Nat.ltb_ge in E2. lia.
Qed.
Lemma fit_rows_nth {B} (zero : B) n rows i : i < n -> nth i (fit_rows zero n rows) zero = nth i rows zero.
Proof.
  intro H. unfold fit_rows. destruct (List.length rows <? n) eqn:E.
  - apply Nat.ltb_lt in E. destruct (Nat.lt_ge_cases i (List.length rows)); [rewrite app_nth1 by assumption; reflexivity|]. rewrite app_nth2 by lia. rewrite nth_repeat, nth_overflow by lia. reflexivity.
  - destruct (n <? List.length rows) eqn:E2; [|reflexivity]. rewrite <- (firstn_skipn n rows) at 2. rewrite app_nth1; [reflexivity|]. rewrite firstn_length. apply Nat.ltb_lt in E2. lia.
Qed.
