(* Proofs about the positions of a scan. *)
From Coq Require Import String QArith Qcanon.
From Verif Require Import SpecgridModel SpecgridSpec TextProofs ScanProofs ScanMain.
Local Open Scope nat_scope.

Lemma qn_pos n : (0 < n)%Z -> qn n <> 0%Qc.
Proof. intros H E. apply (Qc_of_Z_inj _ 0) in E. lia. Qed.
Lemma two_ne : qn 2 <> 0%Qc.
Proof. apply qn_pos. lia. Qed.
Lemma fdiv_ok a n : n <> 0%Z -> fdiv a n = Ok (a / qn n)%Qc.
Proof. intros H. unfold fdiv. apply Z.eqb_neq in H. rewrite H. reflexivity. Qed.
Lemma fdiv_zero a : fdiv a 0 = Err ZeroDivisionError.
Proof. reflexivity. Qed.
Lemma arange_nth n i : i < Z.to_nat n -> nth_error (arange n) i = Some (qn (Z.of_nat i)).
Proof.
  intros H. unfold arange. rewrite nth_error_map. replace (nth_error (seq 0 (Z.to_nat n)) i) with (Some i); [reflexivity|].
  symmetry. assert (L : i < length (seq 0 (Z.to_nat n))) by (rewrite seq_length; exact H).
  rewrite (nth_error_nth' _ 0 L). rewrite seq_nth by exact H. reflexivity.
Qed.
Lemma arange_len n : length (arange n) = Z.to_nat n.
Proof. unfold arange. rewrite map_length, seq_length. reflexivity. Qed.
Lemma qn_S i : qn (Z.of_nat (S i)) = (qn (Z.of_nat i) + 1)%Qc.
Proof. unfold qn. rewrite Nat2Z.inj_succ, <- Z.add_1_r, Qc_of_Z_plus. reflexivity. Qed.
Lemma qn_0 : qn 0 = 0%Qc. Proof. reflexivity. Qed.

Theorem zapline_centres start stop n : (0 < n)%Z -> exists l, zapline_values start stop n = Ok l /\ centres start stop (Z.to_nat n) l.
Proof.
  intros H. unfold zapline_values. rewrite fdiv_ok by lia. cbn [bind]. eexists. split; [reflexivity|]. split; [rewrite map_length; apply arange_len|].
  exists (fun i => (start + (stop - start) / qn n * qn (Z.of_nat i))%Qc).
  assert (N : qn n <> 0%Qc) by (apply qn_pos; exact H). pose proof two_ne as T.
  split; [|split; [|split]].
  - change (qn (Z.of_nat 0)) with 0%Qc. ring.
  - rewrite Z2Nat.id by lia. revert N. generalize (qn n). intros q N. field. exact N.
  - intros i _. rewrite !qn_S. change (qn (Z.of_nat 0)) with 0%Qc. generalize (qn (Z.of_nat i)). intros x. ring.
  - intros i Hi. rewrite nth_error_map, arange_nth by exact Hi. cbn [option_map]. apply (f_equal Some). rewrite qn_S.
    change (Qc_of_Z 2) with (qn 2). assert (E2 : qn 2 = (1 + 1)%Qc) by (apply Qc_is_canon; vm_compute; reflexivity). rewrite E2 in *.
    revert N. generalize (qn (Z.of_nat i)) (qn n). intros x q N. field. split; assumption.
Qed.
Lemma last_nth {A} (l : list A) d : l <> [] -> nth_error l (length l - 1) = Some (last l d).
Proof.
  intros N. destruct (exists_last N) as [l' [x ->]]. rewrite app_length. cbn [length]. replace (length l' + 1 - 1) with (length l') by lia.
  rewrite nth_error_app2, Nat.sub_diag by lia. rewrite last_last. reflexivity.
Qed.
Theorem zapline_ends start stop n l a b : (0 < n)%Z -> zapline_values start stop n = Ok l -> nth_error l 0 = Some a -> nth_error l (length l - 1) = Some b ->
  zapline_range start stop n = Ok [a; b] /\ zapline_scansize start stop n = Ok (b - a)%Qc.
Proof.
  intros H. unfold zapline_values, zapline_range, zapline_scansize. rewrite fdiv_ok by lia. cbn [bind]. intros E. 
  assert (El : l = map (fun i => (start + (stop - start) / qn n / qn 2 + (stop - start) / qn n * i)%Qc) (arange n)) by congruence. clear E.
  assert (N : qn n <> 0%Qc) by (apply qn_pos; exact H). pose proof two_ne as T.
  assert (Hl : length l = Z.to_nat n) by (rewrite El, map_length; apply arange_len). rewrite Hl.
  rewrite El, !nth_error_map, !arange_nth by lia. cbn [option_map]. intros Ea Eb. apply some_eq in Ea as <-. apply some_eq in Eb as <-.
  assert (E1 : qn (Z.of_nat (Z.to_nat n - 1)) = (qn n - 1)%Qc).
  { replace (Z.of_nat (Z.to_nat n - 1)) with (n - 1)%Z by lia. unfold qn. rewrite Qc_of_Z_minus. reflexivity. }
  rewrite E1. change (qn (Z.of_nat 0)) with 0%Qc. clear E1 El Hl.
  assert (E2 : qn 2 = (1 + 1)%Qc) by (apply Qc_is_canon; vm_compute; reflexivity). rewrite E2 in *. revert N. generalize (qn n). intros q N. clear H.
  split; [apply (f_equal Ok); f_equal; [|f_equal]|apply (f_equal Ok)]; field; tauto.
Qed.
Theorem ascan_steps start stop n : (0 < n)%Z -> exists l, ascan_values start stop n = Ok l /\ steps start stop (Z.to_nat n) l.
Proof.
  intros H. unfold ascan_values. rewrite fdiv_ok by lia. cbn [bind]. eexists. split; [reflexivity|].
  assert (N : qn n <> 0%Qc) by (apply qn_pos; exact H).
  split; [rewrite map_length, arange_len; lia|]. split; [|split].
  - rewrite nth_error_map, arange_nth by lia. cbn [option_map]. apply (f_equal Some). change (qn (Z.of_nat 0)) with 0%Qc. ring.
  - rewrite nth_error_map, arange_nth by lia. cbn [option_map]. apply (f_equal Some). rewrite Z2Nat.id by lia.
    revert N. generalize (qn n). intros q N. field. exact N.
  - intros i a b c d Ea Eb Ec Ed. set (g := fun i : Qc => _) in *.
    assert (Hi : S i < length (map g (arange (n + 1)))) by (apply nth_error_Some; congruence). rewrite map_length, arange_len in Hi.
    rewrite nth_error_map, arange_nth in Ea, Eb, Ec, Ed by lia. cbn [option_map] in *. apply some_eq in Ea as <-. apply some_eq in Eb as <-.
    apply some_eq in Ec as <-. apply some_eq in Ed as <-. unfold g. rewrite !qn_S. change (qn (Z.of_nat 0)) with 0%Qc.
    generalize (qn (Z.of_nat i)). intros x. generalize ((stop - start) / qn n)%Qc. intros y. ring.
Qed.
Theorem ascan_ends start stop n l a b : (0 < n)%Z -> ascan_values start stop n = Ok l -> nth_error l 0 = Some a -> nth_error l (length l - 1) = Some b ->
  ascan_range start stop n = Ok [a; b] /\ ascan_scansize start stop n = Ok (b - a)%Qc.
Proof.
  intros H E Ea Eb. destruct (ascan_steps start stop n H) as [l' [E' [Hl [H0 [H1 _]]]]]. assert (l' = l) as -> by congruence.
  rewrite Hl in Eb. replace (S (Z.to_nat n) - 1) with (Z.to_nat n) in Eb by lia. rewrite H0 in Ea. rewrite H1 in Eb.
  apply some_eq in Ea as <-. apply some_eq in Eb as <-. split; reflexivity.
Qed.
Theorem ascan_spacing start stop n l i a b : (0 < n)%Z -> ascan_values start stop n = Ok l -> nth_error l i = Some a -> nth_error l (S i) = Some b ->
  ascan_pixelsize start stop n = Ok (b - a)%Qc.
Proof.
  intros H. unfold ascan_values, ascan_pixelsize. rewrite fdiv_ok by lia. cbn [bind]. intros E.
  assert (El : l = map (fun i => (start + (stop - start) / qn n * i)%Qc) (arange (n + 1))) by congruence. clear E. intros Ea Eb.
  assert (Hi : S i < length l) by (apply nth_error_Some; congruence). rewrite El, map_length, arange_len in Hi.
  rewrite El, nth_error_map, arange_nth in Ea, Eb by lia. cbn [option_map] in *. apply some_eq in Ea as <-. apply some_eq in Eb as <-.
  rewrite qn_S. apply (f_equal Ok). generalize (qn (Z.of_nat i)). intros x. generalize ((stop - start) / qn n)%Qc. intros y. ring.
Qed.
Theorem zapline_spacing start stop n l i a b p : (1 < n)%Z -> start <> stop -> zapline_values start stop n = Ok l ->
  nth_error l i = Some a -> nth_error l (S i) = Some b -> zapline_pixelsize start stop n = Ok p -> p <> (b - a)%Qc.
Proof.
  intros H Hne. unfold zapline_values, zapline_pixelsize. rewrite !fdiv_ok by lia. cbn [bind]. intros E.
  assert (El : l = map (fun i => (start + (stop - start) / qn n / qn 2 + (stop - start) / qn n * i)%Qc) (arange n)) by congruence. clear E. intros Ea Eb Ep.
  assert (Hi : S i < length l) by (apply nth_error_Some; congruence). rewrite El, map_length, arange_len in Hi.
  rewrite El, nth_error_map, arange_nth in Ea, Eb by lia. cbn [option_map] in *. apply some_eq in Ea as <-. apply some_eq in Eb as <-.
  assert (p = (stop - start) / qn (n - 1))%Qc as -> by congruence. rewrite qn_S.
  assert (N : qn n <> 0%Qc) by (apply qn_pos; lia). assert (N1 : (qn n - 1)%Qc <> 0%Qc).
  { change 1%Qc with (qn 1). unfold qn. rewrite <- Qc_of_Z_minus. apply qn_pos. lia. }
  assert (E1 : qn (n - 1) = (qn n - 1)%Qc) by (unfold qn; rewrite Qc_of_Z_minus; reflexivity). rewrite E1. clear Ep.
  revert N N1. generalize (qn n). clear E1. intros q N N1 F.
  assert (D : (stop - start)%Qc = 0%Qc).
  { set (w := (stop - start)%Qc) in *. 
    transitivity ((q * (q - 1)) * (w / (q - 1) - w / q))%Qc; [field; tauto|]. rewrite F. field. split; [exact N | exact two_ne]. }
  apply Hne. rewrite <- (Qcplus_0_r start), <- D. ring.
Qed.
Theorem zapline_one_pixel start stop : zapline_pixelsize start stop 1 = Err ZeroDivisionError /\ exists x, zapline_values start stop 1 = Ok [x].
Proof. split; [reflexivity|]. eexists. reflexivity. Qed.
Theorem no_pixels start stop : zapline_values start stop 0 = Err ZeroDivisionError /\ zapline_range start stop 0 = Err ZeroDivisionError /\
  zapline_scansize start stop 0 = Err ZeroDivisionError /\ ascan_values start stop 0 = Err ZeroDivisionError /\ ascan_pixelsize start stop 0 = Err ZeroDivisionError.
Proof. repeat split. Qed.

Theorem submap_never {A} cmd header currentpos microntounits : exists e, @zapimage_submap A cmd header currentpos microntounits = Err e.
Proof.
  unfold zapimage_submap. destruct cmd as [c|]; [|eexists; reflexivity]. cbv zeta.
  repeat match goal with
  | |- exists e, (let! _ := ?r in _) = Err e => destruct r; cbn [bind]; [|eexists; reflexivity]
  | |- exists e, (if ?b then _ else _) = Err e => destruct b; [eexists; reflexivity|]
  end. eexists. reflexivity.
Qed.

(* ---- dimensions ---- *)
Lemma value_at_held names : forall values m v, value_at (map lower names) values m = Ok v <-> held names values m v.
Proof.
  induction names as [|n names IH]; intros values m v; cbn [map value_at].
  - split; [discriminate|]. intros [pre [x [post [E _]]]]. destruct pre; discriminate.
  - assert (K : forall values', (forall x, chars_eqb m (lower n) = false -> nth_error values (S x) = nth_error values' x) -> chars_eqb m (lower n) = false ->
      held names values' m v <-> held (n :: names) values m v).
    { intros values' Hv E. split.
      - intros [pre [x [post [-> [Hx [Hp Hn]]]]]]. exists (n :: pre), x, post. split; [reflexivity|]. split; [exact Hx|]. split.
        + intros y [<- | Hy]; [|apply Hp; exact Hy]. intros F. rewrite <- F, (proj2 (chars_eqb_spec _ _) eq_refl) in E. discriminate.
        + cbn [length]. rewrite (Hv _ E). exact Hn.
      - intros [pre [x [post [En [Hx [Hp Hn]]]]]]. destruct pre as [|y pre].
        + cbn in En. injection En as <- <-. rewrite <- Hx, (proj2 (chars_eqb_spec _ _) eq_refl) in E. discriminate.
        + cbn in En. injection En as <- ->. exists pre, x, post. split; [reflexivity|]. split; [exact Hx|]. split.
          * intros z Hz. apply Hp. right. exact Hz.
          * cbn [length] in Hn. rewrite (Hv _ E) in Hn. exact Hn. }
    assert (K2 : chars_eqb m (lower n) = true -> nth_error values 0 = Some v <-> held (n :: names) values m v).
    { intros E. apply chars_eqb_spec in E. split.
      - intros H. exists [], n, names. split; [reflexivity|]. split; [symmetry; exact E|]. split; [intros x []|]. exact H.
      - intros [pre [x [post [En [Hx [Hp Hn]]]]]]. destruct pre as [|y pre]; [exact Hn|]. cbn in En. injection En as <- ->.
        exfalso. apply (Hp n); [left; reflexivity | symmetry; exact E]. }
    destruct values as [|w values]; destruct (chars_eqb m (lower n)) eqn:E.
    + rewrite <- K2 by reflexivity. cbn. split; discriminate.
    + rewrite IH. apply K; [|reflexivity]. intros x _. destruct x; reflexivity.
    + rewrite <- K2 by reflexivity. cbn. split; congruence.
    + rewrite IH. apply K; reflexivity.
Qed.
Lemma chars_eqb_refl a : chars_eqb a a = true.
Proof. apply chars_eqb_spec. reflexivity. Qed.
Lemma chars_eqb_neq a b : a <> b -> chars_eqb a b = false.
Proof. intros H. destruct (chars_eqb a b) eqn:E; [|reflexivity]. apply chars_eqb_spec in E. contradiction. Qed.
Lemma lookup_assign_same (k : chars) (v : extent) d : lookup chars_eqb k (assign chars_eqb k v d) = Some v.
Proof.
  induction d as [|[k' v'] d IH]; cbn [assign lookup]; [rewrite chars_eqb_refl; reflexivity|].
  destruct (chars_eqb k k') eqn:E; cbn [lookup]; rewrite ?chars_eqb_refl, ?E; [reflexivity | exact IH].
Qed.
Lemma lookup_assign_other (k k' : chars) (v : extent) d : k <> k' -> lookup chars_eqb k (assign chars_eqb k' v d) = lookup chars_eqb k d.
Proof.
  intros N. induction d as [|[q w] d IH]; cbn [assign lookup]; [rewrite chars_eqb_neq by exact N; reflexivity|].
  destruct (chars_eqb k' q) eqn:E; cbn [lookup].
  - apply chars_eqb_spec in E as ->. rewrite chars_eqb_neq by exact N. reflexivity.
  - rewrite IH. reflexivity.
Qed.
Lemma at_positions_ok names values : forall motors acc, (forall m, In m motors -> exists v, value_at names values m = Ok v) ->
  exists ret, at_positions names values motors acc = Ok ret /\
    (forall m v, In m motors -> value_at names values m = Ok v -> lookup chars_eqb m ret = Some (At v)) /\
    (forall m, ~ In m motors -> lookup chars_eqb m ret = lookup chars_eqb m acc).
Proof.
  induction motors as [|m motors IH]; intros acc H; cbn [at_positions].
  - exists acc. split; [reflexivity|]. split; [intros m v [] | reflexivity].
  - destruct (H m (or_introl eq_refl)) as [v Ev]. rewrite Ev. cbn [bind].
    destruct (IH (assign chars_eqb m (At v) acc)) as [ret [E [H1 H2]]]; [intros x Hx; apply H; right; exact Hx|].
    exists ret. split; [exact E|]. split.
    + intros x w Hx Ew. destruct (in_dec (list_eq_dec ascii_dec) x motors) as [I | I]; [apply H1; assumption|].
      destruct Hx as [<- | Hx]; [|contradiction]. rewrite (H2 _ I). assert (w = v) as -> by congruence. apply lookup_assign_same.
    + intros x Hx. rewrite H2 by (intros F; apply Hx; right; exact F). apply lookup_assign_other. intros ->. apply Hx. left. reflexivity.
Qed.
Lemma among_spec m l : among m l = true <-> In m l.
Proof.
  unfold among. rewrite existsb_exists. split; [intros [x [Hx E]]; apply chars_eqb_spec in E as ->; exact Hx|].
  intros H. exists m. split; [exact H | apply chars_eqb_refl].
Qed.
Lemma get_same d d' k : same_dict d d' -> get d k = get d' k.
Proof. intros H. unfold get. rewrite (H k). reflexivity. Qed.
Lemma get_num_same d d' k : same_dict d d' -> get_num d k = get_num d' k.
Proof. intros H. unfold get_num. rewrite (get_same _ _ _ H). reflexivity. Qed.
Lemma get_int_same d d' k : same_dict d d' -> get_int d k = get_int d' k.
Proof. intros H. unfold get_int. rewrite (get_same _ _ _ H). reflexivity. Qed.
Lemma get_text_same d d' k : same_dict d d' -> get_text d k = get_text d' k.
Proof. intros H. unfold get_text. rewrite (get_same _ _ _ H). reflexivity. Qed.
Lemma set_range_same d d' motors a b c e f ret : same_dict d d' -> set_range d motors a b c e f ret = set_range d' motors a b c e f ret.
Proof. intros H. unfold set_range. rewrite (get_text_same _ _ _ H), !(get_num_same _ _ _ H), (get_int_same _ _ _ H). reflexivity. Qed.

Section Dims.
Variables (mnames motors : list chars) (values : list Qc).
Hypothesis known : forall m, In m motors -> exists v, held mnames values (lower m) v.
Lemma known_at : forall m, In m (map lower motors) -> exists v, value_at (map lower mnames) values m = Ok v.
Proof.
  intros m Hm. apply in_map_iff in Hm as [x [<- Hx]]. destruct (known x Hx) as [v Hv]. exists v. apply value_at_held. exact Hv.
Qed.
Theorem dims_zapimage cmd mf sf ef nf ms ss es ns t : same_dict (parse cmd) (area (txt "zapimage") mf sf ef (txt "npixelsfast") nf ms ss es ns t) -> (0 < nf)%Z ->
  exists ret l a b, getdimensions mnames values cmd motors = Ok ret /\
    centres sf ef (Z.to_nat nf) l /\ nth_error l 0 = Some a /\ nth_error l (Z.to_nat nf - 1) = Some b /\
    (forall m, In m motors -> lower m = ms -> lookup chars_eqb ms ret = Some (Range [ss; es])) /\
    (forall m, In m motors -> lower m = mf -> mf <> ms -> lookup chars_eqb mf ret = Some (Range [a; b])) /\
    (forall m v, In m motors -> lower m <> mf -> lower m <> ms -> held mnames values (lower m) v -> lookup chars_eqb (lower m) ret = Some (At v)).
Proof.
  intros S Hn. destruct (at_positions_ok (map lower mnames) values (map lower motors) [] known_at) as [ret0 [E0 [H1 _]]].
  destruct (zapline_centres sf ef nf Hn) as [l [El Cl]]. pose proof Cl as [Ll _].
  assert (La : exists a, nth_error l 0 = Some a). { destruct (nth_error l 0) eqn:E; [eauto|]. apply nth_error_None in E. lia. }
  assert (Lb : exists b, nth_error l (Z.to_nat nf - 1) = Some b). { destruct (nth_error l (Z.to_nat nf - 1)) eqn:E; [eauto|]. apply nth_error_None in E. lia. }
  destruct La as [a Ea], Lb as [b Eb].
  assert (Er : zapline_range sf ef nf = Ok [a; b]). { apply (zapline_ends sf ef nf l a b Hn El Ea). rewrite Ll. exact Eb. }
  unfold getdimensions. rewrite E0. cbn [bind]. rewrite (get_text_same _ _ _ S).
  change (get_text (area (txt "zapimage") mf sf ef (txt "npixelsfast") nf ms ss es ns t) kname) with (@Ok chars (txt "zapimage")). cbn [bind].
  rewrite (chars_eqb_refl (txt "zapimage")).
  set (D := area _ _ _ _ _ _ _ _ _ _ _) in *.
  assert (F1 : set_range (parse cmd) (map lower motors) kmotfast kstartfast kendfast knpixelsfast zapline_range ret0 =
    Ok (if among mf (map lower motors) then assign chars_eqb mf (Range [a; b]) ret0 else ret0)).
  { rewrite (set_range_same _ _ _ _ _ _ _ _ _ S). unfold set_range. change (get_text D kmotfast) with (@Ok chars mf). cbn [bind].
    destruct (among mf (map lower motors)); [|reflexivity].
    change (get_num D kstartfast) with (Ok sf). change (get_num D kendfast) with (Ok ef). change (get_int D knpixelsfast) with (Ok nf). cbn [bind].
    rewrite Er. reflexivity. }
  rewrite F1. cbn [bind]. set (ret1 := if among mf (map lower motors) then assign chars_eqb mf (Range [a; b]) ret0 else ret0).
  assert (F2 : set_range (parse cmd) (map lower motors) kmotslow kstartslow kendslow knstepsslow ascan_range ret1 =
    Ok (if among ms (map lower motors) then assign chars_eqb ms (Range [ss; es]) ret1 else ret1)).
  { rewrite (set_range_same _ _ _ _ _ _ _ _ _ S). unfold set_range. change (get_text D kmotslow) with (@Ok chars ms). cbn [bind].
    destruct (among ms (map lower motors)); [|reflexivity].
    change (get_num D kstartslow) with (Ok ss). change (get_num D kendslow) with (Ok es). change (get_int D knstepsslow) with (Ok ns). reflexivity. }
  rewrite F2. exists (if among ms (map lower motors) then assign chars_eqb ms (Range [ss; es]) ret1 else ret1), l, a, b.
  split; [reflexivity|]. split; [exact Cl|]. split; [exact Ea|]. split; [exact Eb|]. split; [|split].
  - intros m Hm <-. rewrite (proj2 (among_spec _ _) (in_map lower _ _ Hm)). apply lookup_assign_same.
  - intros m Hm <- Hne.
    assert (R : lookup chars_eqb (lower m) ret1 = Some (Range [a; b])).
    { unfold ret1. rewrite (proj2 (among_spec _ _) (in_map lower _ _ Hm)). apply lookup_assign_same. }
    destruct (among ms (map lower motors)); [rewrite lookup_assign_other by exact Hne|]; exact R.
  - intros m v Hm N1 N2 Hv.
    assert (R : lookup chars_eqb (lower m) ret1 = Some (At v)).
    { assert (R0 : lookup chars_eqb (lower m) ret0 = Some (At v)) by (apply H1; [apply in_map; exact Hm | apply value_at_held; exact Hv]).
      unfold ret1. destruct (among mf (map lower motors)); [rewrite lookup_assign_other by exact N1|]; exact R0. }
    destruct (among ms (map lower motors)); [rewrite lookup_assign_other by exact N2|]; exact R.
Qed.
Theorem dims_ascan cmd mf sf ef nf t m : same_dict (parse cmd) (line (txt "ascan") mf sf ef (txt "nstepsfast") nf t) -> In m motors -> lower m = mf ->
  getdimensions mnames values cmd motors = Err KeyError.
Proof.
  intros S Hm <-. destruct (at_positions_ok (map lower mnames) values (map lower motors) [] known_at) as [ret0 [E0 _]].
  unfold getdimensions. rewrite E0. cbn [bind]. rewrite (get_text_same _ _ _ S).
  set (D := line _ _ _ _ _ _ _) in *. change (get_text D kname) with (@Ok chars (txt "ascan")). cbn [bind].
  change (chars_eqb (txt "ascan") (txt "zapimage")) with false. rewrite (chars_eqb_refl (txt "ascan")).
  rewrite (set_range_same _ _ _ _ _ _ _ _ _ S). unfold set_range. change (get_text D kmotfast) with (@Ok chars (lower m)). cbn [bind].
  rewrite (proj2 (among_spec _ _) (in_map lower _ _ Hm)). reflexivity.
Qed.
Theorem dims_mesh cmd mf sf ef nf ms ss es ns t m : same_dict (parse cmd) (area (txt "mesh") mf sf ef (txt "nstepsfast") nf ms ss es ns t) ->
  In m motors -> lower m = mf -> getdimensions mnames values cmd motors = Err KeyError.
Proof.
  intros S Hm <-. destruct (at_positions_ok (map lower mnames) values (map lower motors) [] known_at) as [ret0 [E0 _]].
  unfold getdimensions. rewrite E0. cbn [bind]. rewrite (get_text_same _ _ _ S).
  set (D := area _ _ _ _ _ _ _ _ _ _ _) in *. change (get_text D kname) with (@Ok chars (txt "mesh")). cbn [bind].
  change (chars_eqb (txt "mesh") (txt "zapimage")) with false. change (chars_eqb (txt "mesh") (txt "ascan")) with false. rewrite (chars_eqb_refl (txt "mesh")).
  cbv iota. rewrite (set_range_same _ _ _ _ _ _ _ _ _ S). unfold set_range at 1. change (get_text D kmotfast) with (@Ok chars (lower m)). cbn [bind].
  rewrite (proj2 (among_spec _ _) (in_map lower _ _ Hm)). reflexivity.
Qed.
End Dims.

Theorem image_sizes_spec cmd name mf sf ef nf ms ss es ns t : same_dict (parse cmd) (area name mf sf ef (txt "npixelsfast") nf ms ss es ns t) -> (1 < nf)%Z -> (0 < ns)%Z ->
  exists z fast slow, image_sizes cmd = Ok z /\ zapline_values sf ef nf = Ok fast /\ ascan_values ss es ns = Ok slow /\
    scansize z = (Z.of_nat (length fast), Z.of_nat (length slow)) /\
    zapline_scansize sf ef nf = Ok (fst (scansize_units z)) /\ snd (scansize_units z) = (ef - sf)%Qc.
Proof.
  intros S Hn Hs. destruct (zapline_centres sf ef nf) as [fast [Ef [Lf _]]]; [lia|]. destruct (ascan_steps ss es ns Hs) as [slow [Es [Ls _]]].
  unfold image_sizes. rewrite !(get_int_same _ _ _ S), !(get_num_same _ _ _ S). set (D := area _ _ _ _ _ _ _ _ _ _ _) in *.
  change (get_int D knpixelsfast) with (Ok nf). change (get_int D knstepsslow) with (Ok ns). change (get_num D kstartfast) with (Ok sf). change (get_num D kendfast) with (Ok ef).
  cbn [bind]. unfold zapline_scansize, zapline_pixelsize, ascan_pixelsize, ascan_scansize. rewrite !fdiv_ok by lia. cbn [bind].
  eexists. exists fast, slow. split; [reflexivity|]. split; [exact Ef|]. split; [exact Es|]. cbn [scansize scansize_units fst snd].
  split; [|split; reflexivity]. rewrite Lf, Ls. f_equal; lia.
Qed.
Theorem image_one_pixel cmd name mf sf ef ms ss es ns t : same_dict (parse cmd) (area name mf sf ef (txt "npixelsfast") 1 ms ss es ns t) ->
  image_sizes cmd = Err ZeroDivisionError.
Proof.
  intros S. unfold image_sizes. rewrite !(get_int_same _ _ _ S), !(get_num_same _ _ _ S). reflexivity.
Qed.

(* ---- from the words of a command ---- *)
Section Words.
Variables (ws : list chars) (tail cmd : chars) (mnames motors : list chars) (values : list Qc).
Hypothesis Hl : laid ws tail cmd.
Hypothesis Hn : named ws cmd.
Hypothesis He : ends tail.
Theorem dimensions_zapimage mf sf ef nf ms ss es ns t :
  (forall m, In m motors -> exists v, held mnames values (lower m) v) ->
  says ws (area (txt "zapimage") mf sf ef (txt "npixelsfast") nf ms ss es ns t) -> (0 < nf)%Z ->
  exists ret l a b, getdimensions mnames values cmd motors = Ok ret /\
    centres sf ef (Z.to_nat nf) l /\ nth_error l 0 = Some a /\ nth_error l (Z.to_nat nf - 1) = Some b /\
    (forall m, In m motors -> lower m = ms -> lookup chars_eqb ms ret = Some (Range [ss; es])) /\
    (forall m, In m motors -> lower m = mf -> mf <> ms -> lookup chars_eqb mf ret = Some (Range [a; b])) /\
    (forall m v, In m motors -> lower m <> mf -> lower m <> ms -> held mnames values (lower m) v -> lookup chars_eqb (lower m) ret = Some (At v)).
Proof. intros K S P. exact (dims_zapimage mnames motors values K cmd mf sf ef nf ms ss es ns t (parse_complete _ _ _ _ S Hl Hn He) P). Qed.
Theorem dimensions_ascan mf sf ef nf t m :
  (forall m, In m motors -> exists v, held mnames values (lower m) v) ->
  says ws (line (txt "ascan") mf sf ef (txt "nstepsfast") nf t) -> In m motors -> lower m = mf -> getdimensions mnames values cmd motors = Err KeyError.
Proof. intros K S. exact (dims_ascan mnames motors values K cmd mf sf ef nf t m (parse_complete _ _ _ _ S Hl Hn He)). Qed.
Theorem dimensions_mesh mf sf ef nf ms ss es ns t m :
  (forall m, In m motors -> exists v, held mnames values (lower m) v) ->
  says ws (area (txt "mesh") mf sf ef (txt "nstepsfast") nf ms ss es ns t) -> In m motors -> lower m = mf ->
  getdimensions mnames values cmd motors = Err KeyError.
Proof. intros K S. exact (dims_mesh mnames motors values K cmd mf sf ef nf ms ss es ns t m (parse_complete _ _ _ _ S Hl Hn He)). Qed.
Theorem images_spec name mf sf ef nf ms ss es ns t : says ws (area name mf sf ef (txt "npixelsfast") nf ms ss es ns t) -> (1 < nf)%Z -> (0 < ns)%Z ->
  exists z fast slow, image_sizes cmd = Ok z /\ zapline_values sf ef nf = Ok fast /\ ascan_values ss es ns = Ok slow /\
    scansize z = (Z.of_nat (length fast), Z.of_nat (length slow)) /\
    zapline_scansize sf ef nf = Ok (fst (scansize_units z)) /\ snd (scansize_units z) = (ef - sf)%Qc.
Proof. intros S. exact (image_sizes_spec cmd name mf sf ef nf ms ss es ns t (parse_complete _ _ _ _ S Hl Hn He)). Qed.
Theorem images_one_pixel name mf sf ef ms ss es ns t : says ws (area name mf sf ef (txt "npixelsfast") 1 ms ss es ns t) -> image_sizes cmd = Err ZeroDivisionError.
Proof. intros S. exact (image_one_pixel cmd name mf sf ef ms ss es ns t (parse_complete _ _ _ _ S Hl Hn He)). Qed.
End Words.
Definition caps := txt "zapimage sampY 0 1 10 sampz 0 1 10 50".
Theorem capital_ignored : exists ret, getdimensions [txt "sampY"] [Qc_of_Z 7] caps [txt "sampY"] = Ok ret /\ ret = [(txt "sampy", At (Qc_of_Z 7))].
Proof. eexists. split; reflexivity. Qed.

Definition w_zapimage := [txt "zapimage"; txt "sampy"; txt "0"; txt "1"; txt "10"; txt "sampz"; txt "0"; txt "5"; txt "4"; txt "50"].
Lemma dec_digits_lit w : checkb w = true -> forallb digit w = true -> decimal w (Qc_of_Z (value w)).
Proof.
  intros C H. apply Bare, Whole; [apply checkb_solid in C; apply C|]. apply Forall_forall. rewrite forallb_forall in H. exact H.
Qed.
Lemma nat_lit w n : checkb w = true -> forallb digit w = true -> value w = n -> natural w n.
Proof.
  intros C H E. split; [apply checkb_solid in C; apply C|]. split; [apply Forall_forall; rewrite forallb_forall in H; exact H | exact E].
Qed.
Lemma w_zapimage_says : says w_zapimage (area (txt "zapimage") (txt "sampy") (Qc_of_Z 0) (Qc_of_Z 1) (txt "npixelsfast") 10 (txt "sampz") (Qc_of_Z 0) (Qc_of_Z 5) 4 (FMs (Qc_of_Z 50))).
Proof.
  apply Zapimage; try (apply L_motor; split; [discriminate | repeat constructor]); try (apply nat_lit; reflexivity);
    match goal with |- decimal ?w _ => exact (dec_digits_lit w eq_refl eq_refl) end.
Qed.
Lemma w_zapimage_laid : laid w_zapimage [] (txt "zapimage sampy 0 1 10 sampz 0 5 4 50").
Proof. do 9 lay [ch 32]. apply (Laid_last (txt "50") []). Qed.
Lemma w_zapimage_named : named w_zapimage (txt "zapimage sampy 0 1 10 sampz 0 5 4 50").
Proof. eexists. reflexivity. Qed.
Lemma w_zapimage_at : forall m, In m [txt "Sampy"; txt "other"; txt "sampz"] -> exists v, held [txt "sampz"; txt "OTHER"; txt "Sampy"] [Qc_of_Z 3; Qc_of_Z 4; Qc_of_Z 5] (lower m) v.
Proof.
  intros m [<- | [<- | [<- | []]]].
  - exists (Qc_of_Z 5), [txt "sampz"; txt "OTHER"], (txt "Sampy"), []. split; [reflexivity|]. split; [reflexivity|]. split; [|reflexivity].
    intros x [<- | [<- | []]]; discriminate.
  - exists (Qc_of_Z 4), [txt "sampz"], (txt "OTHER"), [txt "Sampy"]. split; [reflexivity|]. split; [reflexivity|]. split; [|reflexivity].
    intros x [<- | []]; discriminate.
  - exists (Qc_of_Z 3), [], (txt "sampz"), [txt "OTHER"; txt "Sampy"]. split; [reflexivity|]. split; [reflexivity|]. split; [|reflexivity]. intros x [].
Qed.
Theorem slow_size_ignored : exists ws cmd mf sf ef nf ms ss es ns t z, says ws (area (txt "zapimage") mf sf ef (txt "npixelsfast") nf ms ss es ns t) /\ laid ws [] cmd /\ named ws cmd /\
  image_sizes cmd = Ok z /\ ascan_scansize ss es ns = Ok (Qc_of_Z 5) /\ snd (scansize_units z) = Qc_of_Z 1.
Proof.
  destruct (images_spec _ _ _ w_zapimage_laid w_zapimage_named I _ _ _ _ _ _ _ _ _ _ w_zapimage_says) as [z [f [s [E [_ [_ [_ [_ H]]]]]]]]; [lia | lia|].
  do 11 eexists. exists z. split; [exact w_zapimage_says|]. split; [exact w_zapimage_laid|]. split; [exact w_zapimage_named|]. split; [exact E|].
  split; [apply (f_equal Ok); apply Qc_is_canon; vm_compute; reflexivity|]. rewrite H. apply Qc_is_canon; vm_compute; reflexivity.
Qed.
