(* Proofs for C32: padding and cropping of images and axes. *)
From Verif Require Import BaseProofs ListToolsProofs TransformProofs AlignSpec.
Local Open Scope Z_scope.

(* list access with an integer *)
Definition znth {A} (l : list A) (z : Z) : option A := if z <? 0 then None else nth_error l (Z.to_nat z).
Definition zlen {A} (l : list A) : Z := Z.of_nat (length l).
Lemma znth_none {A} (l : list A) z : znth l z = None <-> (z < 0 \/ zlen l <= z).
Proof.
  unfold znth, zlen. destruct (Z.ltb_spec z 0); [intuition lia|].
  rewrite nth_error_None. lia.
Qed.
Lemma znth_some {A} (l : list A) z : 0 <= z < zlen l -> exists a, znth l z = Some a.
Proof.
  intro H. destruct (znth l z) eqn:E; [eauto|]. apply znth_none in E. lia.
Qed.
Lemma znth_app {A} (l l' : list A) z : 0 <= z ->
  znth (l ++ l') z = if z <? zlen l then znth l z else znth l' (z - zlen l).
Proof.
  intro H. unfold znth, zlen. destruct (Z.ltb_spec z 0); [lia|].
  destruct (Z.ltb_spec z (Z.of_nat (length l))).
  - apply nth_error_app1. lia.
  - destruct (Z.ltb_spec (z - Z.of_nat (length l)) 0); [lia|].
    rewrite nth_error_app2 by lia. f_equal. lia.
Qed.
Lemma zlen_app {A} (l l' : list A) : zlen (l ++ l') = zlen l + zlen l'.
Proof. unfold zlen. rewrite app_length. lia. Qed.
Lemma zlen_zrepeat {A} (x : A) n : zlen (zrepeat x n) = Z.max 0 n.
Proof. unfold zlen, zrepeat. rewrite repeat_length. lia. Qed.
Lemma znth_zrepeat {A} (x : A) n z : znth (zrepeat x n) z = if (0 <=? z) && (z <? n) then Some x else None.
Proof.
  destruct ((0 <=? z) && (z <? n)) eqn:E.
  - apply andb_true_iff in E as [E1 E2]. apply Z.leb_le in E1. apply Z.ltb_lt in E2.
    destruct (znth_some (zrepeat x n) z) as [a Ha]; [rewrite zlen_zrepeat; lia|].
    rewrite Ha. unfold znth in Ha. destruct (z <? 0); [discriminate|].
    apply nth_error_In in Ha. apply repeat_spec in Ha. now subst.
  - apply znth_none. rewrite zlen_zrepeat.
    apply andb_false_iff in E as [E|E]; [apply Z.leb_gt in E|apply Z.ltb_ge in E]; lia.
Qed.
Lemma zlen_map {A B} (f : A -> B) l : zlen (map f l) = zlen l.
Proof. unfold zlen. now rewrite map_length. Qed.
Lemma znth_map {A B} (f : A -> B) l z : znth (map f l) z = option_map f (znth l z).
Proof. unfold znth. destruct (z <? 0); [reflexivity|]. apply nth_error_map. Qed.
Lemma zlen_nonneg {A} (l : list A) : 0 <= zlen l.
Proof. unfold zlen. lia. Qed.
Lemma znth_firstn {A} (l : list A) n z : znth (firstn n l) z = if z <? Z.of_nat n then znth l z else None.
Proof.
  unfold znth. destruct (Z.ltb_spec z 0); [now destruct (z <? Z.of_nat n)|].
  destruct (Z.ltb_spec z (Z.of_nat n)).
  - rewrite <- (firstn_skipn n l) at 2. destruct (Nat.lt_ge_cases (Z.to_nat z) (length (firstn n l))).
    + now rewrite nth_error_app1.
    + rewrite nth_error_app2 by lia. rewrite firstn_length in H1.
      rewrite skipn_all2 by lia. rewrite (proj2 (nth_error_None _ _)) by (rewrite firstn_length; lia).
      now destruct (Z.to_nat z - length (firstn n l))%nat.
  - apply nth_error_None. rewrite firstn_length. lia.
Qed.
Lemma nth_error_skipn' {A} (l : list A) n k : nth_error (skipn n l) k = nth_error l (n + k).
Proof. revert l. induction n as [|n IH]; intros [|a l]; cbn; try reflexivity; [now destruct k|apply IH]. Qed.
Lemma znth_skipn {A} (l : list A) n z : 0 <= z -> znth (skipn n l) z = znth l (Z.of_nat n + z).
Proof.
  intro H. unfold znth. destruct (Z.ltb_spec z 0); [lia|]. destruct (Z.ltb_spec (Z.of_nat n + z) 0); [lia|].
  rewrite nth_error_skipn'. f_equal. lia.
Qed.
Lemma znth_ext {A} (l l' : list A) : zlen l = zlen l' -> (forall z, 0 <= z < zlen l -> znth l z = znth l' z) -> l = l'.
Proof.
  revert l'. induction l as [|a l IH]; intros [|b l'] Hl H; unfold zlen in *; cbn [length] in *; try lia; [reflexivity|].
  f_equal.
  - specialize (H 0 ltac:(lia)). unfold znth in H. cbn in H. congruence.
  - apply IH; [lia|]. intros z Hz. specialize (H (z + 1) ltac:(lia)). unfold znth in *.
    destruct (Z.ltb_spec (z + 1) 0); [lia|]. destruct (Z.ltb_spec z 0); [lia|].
    replace (Z.to_nat (z + 1)) with (S (Z.to_nat z)) in H by lia. exact H.
Qed.

(** ** One line *)
Lemma pad_line_len {A} (p : Z * Z) (x : A) l : 0 <= fst p -> 0 <= snd p ->
  zlen (pad_line p x l) = fst p + zlen l + snd p.
Proof. intros H1 H2. unfold pad_line. rewrite !zlen_app, !zlen_zrepeat. lia. Qed.
Lemma pad_line_nth {A} (p : Z * Z) (x : A) l z : 0 <= fst p -> 0 <= snd p -> 0 <= z < fst p + zlen l + snd p ->
  znth (pad_line p x l) z = Some match znth l (z - fst p) with Some v => v | None => x end.
Proof.
  intros H1 H2 Hz. unfold pad_line. pose proof (zlen_nonneg l).
  rewrite znth_app by lia. rewrite zlen_zrepeat.
  destruct (Z.ltb_spec z (Z.max 0 (fst p))).
  - rewrite znth_zrepeat. rewrite (proj2 (znth_none l _)) by lia.
    destruct (Z.leb_spec 0 z); [|lia]. destruct (Z.ltb_spec z (fst p)); [reflexivity|lia].
  - rewrite znth_app by lia. replace (z - Z.max 0 (fst p)) with (z - fst p) by lia.
    destruct (Z.ltb_spec (z - fst p) (zlen l)).
    + destruct (znth_some l (z - fst p)) as [v Hv]; [lia|]. now rewrite Hv.
    + rewrite znth_zrepeat. rewrite (proj2 (znth_none l _)) by lia.
      destruct (Z.leb_spec 0 (z - fst p - zlen l)); [|lia].
      destruct (Z.ltb_spec (z - fst p - zlen l) (snd p)); [reflexivity|lia].
Qed.
Lemma slice_bound_in n d v : 0 <= v <= n -> slice_bound n d (Some v) = v.
Proof. intro H. unfold slice_bound. destruct (Z.ltb_spec v 0); lia. Qed.
Lemma py_slice_len {A} (l : list A) a b : 0 <= a <= b -> b <= zlen l -> zlen (py_slice l (Some a) (Some b)) = b - a.
Proof.
  intros Ha Hb. unfold zlen in *. unfold py_slice. rewrite !slice_bound_in by lia.
  rewrite firstn_length, skipn_length. lia.
Qed.
Lemma py_slice_nth {A} (l : list A) a b z : 0 <= a <= b -> b <= zlen l -> 0 <= z < b - a ->
  znth (py_slice l (Some a) (Some b)) z = znth l (a + z).
Proof.
  intros Ha Hb Hz. unfold zlen in *. unfold py_slice. rewrite !slice_bound_in by lia.
  rewrite znth_firstn. destruct (Z.ltb_spec z (Z.of_nat (Z.to_nat (b - a)))); [|lia].
  rewrite znth_skipn by lia. f_equal. lia.
Qed.
(* pad, then crop *)
Definition line {A} (e : Z * Z) (x : A) (l : list A) : list A :=
  let l' := pad_line (padfromextend e) x l in crop_line (cropfromextend e (zlen l')) l'.
Lemma line_spec {A} (e : Z * Z) (x : A) l : 0 <= zlen l + fst e + snd e ->
  zlen (line e x l) = zlen l + fst e + snd e /\
  forall z, 0 <= z < zlen l + fst e + snd e ->
  znth (line e x l) z = Some match znth l (z - fst e) with Some v => v | None => x end.
Proof.
  intro H. unfold line. pose proof (zlen_nonneg l) as Hl.
  set (p := padfromextend e). set (l' := pad_line p x l).
  assert (Hp : 0 <= fst p /\ 0 <= snd p) by (unfold p, padfromextend; cbn [fst snd]; lia).
  assert (Hl' : zlen l' = fst p + zlen l + snd p) by (apply pad_line_len; tauto).
  unfold crop_line, cropfromextend. cbn [fst snd].
  assert (Hfp : fst p = Z.max (fst e) 0) by reflexivity.
  assert (Hsp : snd p = Z.max (snd e) 0) by reflexivity.
  split.
  - rewrite py_slice_len by lia. lia.
  - intros z Hz. rewrite py_slice_nth by lia. unfold l'. rewrite pad_line_nth by lia.
    replace (Z.max (- fst e) 0 + z - fst p) with (z - fst e) by lia. reflexivity.
Qed.

(** ** Images *)
Definition pad_full {V} (cval : V) (e : extension) (i : img V) : img V :=
  let p0 := padfromextend (fst e) in
  let p1 := padfromextend (snd e) in
  let w := fst p1 + cols i + snd p1 in
  Img w (pad_line p0 (zrepeat cval w) (map (pad_line p1 cval) (rows i))).
Definition crop_full {V} (e : extension) (i : img V) : img V :=
  let c0 := cropfromextend (fst e) (nrows i) in
  let c1 := cropfromextend (snd e) (cols i) in
  Img (slice_len (cols i) c1) (map (crop_line c1) (crop_line c0 (rows i))).
Lemma pad_line_zero {A} (x : A) l : pad_line (0, 0) x l = l.
Proof. unfold pad_line, zrepeat. cbn. apply app_nil_r. Qed.
Lemma pad_full_zero {V} (cval : V) e (i : img V) : padfromextend (fst e) = (0, 0) -> padfromextend (snd e) = (0, 0) ->
  pad_full cval e i = i.
Proof.
  intros H0 H1. unfold pad_full. rewrite H0, H1. destruct i as [w l]. cbn [cols rows fst snd]. f_equal; [lia|].
  rewrite pad_line_zero. rewrite (map_ext _ (fun x => x)); [apply map_id|]. intro a. apply pad_line_zero.
Qed.
Lemma pad_pad_full {V} (cval : V) e (i : img V) : pad cval e i = pad_full cval e i.
Proof.
  unfold pad. destruct (_ && _) eqn:E; [|reflexivity].
  apply andb_true_iff in E as [E E4]. apply andb_true_iff in E as [E E3]. apply andb_true_iff in E as [E1 E2].
  apply Z.eqb_eq in E1, E2, E3, E4. symmetry. apply pad_full_zero.
  - destruct (padfromextend (fst e)); cbn in *; congruence.
  - destruct (padfromextend (snd e)); cbn in *; congruence.
Qed.
Lemma crop_line_all {A} (l : list A) : crop_line (0, zlen l) l = l.
Proof.
  unfold crop_line. pose proof (zlen_nonneg l). cbn [fst snd]. apply znth_ext.
  - rewrite py_slice_len by lia. lia.
  - intros z Hz. rewrite py_slice_len in Hz by lia. rewrite py_slice_nth by lia. f_equal.
Qed.
Lemma crop_full_all {V} e (i : img V) : rectangular i ->
  cropfromextend (fst e) (nrows i) = (0, nrows i) -> cropfromextend (snd e) (cols i) = (0, cols i) ->
  crop_full e i = i.
Proof.
  intros [Hc Hr] H0 H1. unfold crop_full. rewrite H0, H1. destruct i as [w l]. cbn [cols rows fst snd] in *. f_equal.
  - unfold slice_len. cbn [fst snd]. rewrite !slice_bound_in by lia. lia.
  - change (nrows (Img w l)) with (zlen l). rewrite crop_line_all.
    rewrite (map_ext_in _ (fun x => x)); [apply map_id|]. intros a Ha.
    rewrite Forall_forall in Hr. rewrite <- (Hr a Ha). apply crop_line_all.
Qed.
Lemma crop_crop_full {V} e (i : img V) : rectangular i -> crop e i = crop_full e i.
Proof.
  intro H. unfold crop. destruct (_ || _) eqn:E; [reflexivity|].
  apply orb_false_iff in E as [E E4]. apply orb_false_iff in E as [E E3]. apply orb_false_iff in E as [E1 E2].
  apply negb_false_iff in E1, E2, E3, E4. apply Z.eqb_eq in E1, E2, E3, E4. symmetry. apply crop_full_all; [exact H| |].
  - destruct (cropfromextend (fst e) (nrows i)); cbn in *; congruence.
  - destruct (cropfromextend (snd e) (cols i)); cbn in *; congruence.
Qed.
Lemma any4_false f e : any4 f e = false ->
  f (fst (fst e)) = false /\ f (snd (fst e)) = false /\ f (fst (snd e)) = false /\ f (snd (snd e)) = false.
Proof. unfold any4. rewrite !orb_false_iff. tauto. Qed.
Lemma pad_full_rectangular {V} (cval : V) e i : rectangular i -> rectangular (pad_full cval e i).
Proof.
  intros [Hc Hr]. unfold pad_full. set (p1 := padfromextend (snd e)).
  assert (Hp : 0 <= fst p1 /\ 0 <= snd p1) by (unfold p1, padfromextend; cbn [fst snd]; lia).
  split; [cbn [cols]; lia|]. cbn [cols rows]. unfold pad_line at 1.
  assert (Hz : forall n, Forall (fun l => Z.of_nat (length l) = fst p1 + cols i + snd p1)
                  (zrepeat (zrepeat cval (fst p1 + cols i + snd p1)) n)).
  { intro n. apply Forall_forall. intros l Hl. apply repeat_spec in Hl. subst l. fold (zlen (zrepeat cval (fst p1 + cols i + snd p1))).
    rewrite zlen_zrepeat. lia. }
  rewrite !Forall_app. split; [apply Hz|split; [|apply Hz]].
  apply Forall_map. eapply Forall_impl; [|exact Hr]. intros l Hl. cbn beta in Hl. fold (zlen (pad_line p1 cval l)).
  rewrite pad_line_len by tauto. unfold zlen. lia.
Qed.
Lemma pad_and_crop_full {V} (cval : V) s i : rectangular i ->
  do_pad s = any4 (fun z => 0 <? z) (extend s) -> do_crop s = any4 (fun z => z <? 0) (extend s) ->
  pad_and_crop cval s i = crop_full (extend s) (pad_full cval (extend s) i).
Proof.
  intros Hi Hp Hc. unfold pad_and_crop.
  assert (E : (if do_pad s then pad cval (extend s) i else i) = pad_full cval (extend s) i).
  { destruct (do_pad s); [apply pad_pad_full|]. symmetry in Hp. apply any4_false in Hp as (H1 & H2 & H3 & H4).
    apply Z.ltb_ge in H1, H2, H3, H4. symmetry. apply pad_full_zero; unfold padfromextend; f_equal; lia. }
  rewrite E. pose proof (pad_full_rectangular cval (extend s) i Hi) as Hr. set (j := pad_full cval (extend s) i) in *.
  destruct (do_crop s); [now apply crop_crop_full|]. symmetry in Hc. apply any4_false in Hc as (H1 & H2 & H3 & H4).
  apply Z.ltb_ge in H1, H2, H3, H4. symmetry. apply crop_full_all; [exact Hr| |]; unfold cropfromextend; f_equal; lia.
Qed.
Lemma pixel_znth {V} (i : img V) r c : pixel i r c = match znth (rows i) r with Some l => znth l c | None => None end.
Proof.
  unfold pixel, znth. destruct (r <? 0); [reflexivity|]. cbn [orb]. destruct (c <? 0); [|reflexivity].
  now destruct (nth_error (rows i) (Z.to_nat r)).
Qed.
Lemma zlen_row {V} (i : img V) r l : rectangular i -> znth (rows i) r = Some l -> zlen l = cols i.
Proof.
  intros [_ H] E. unfold znth in E. destruct (r <? 0); [discriminate|]. apply nth_error_In in E.
  rewrite Forall_forall in H. exact (H l E).
Qed.
Lemma crop_pad_spec {V} (cval : V) (e : extension) i : rectangular i ->
  0 <= nrows i + fst (fst e) + snd (fst e) -> 0 <= cols i + fst (snd e) + snd (snd e) ->
  let o := crop_full e (pad_full cval e i) in
  rectangular o /\ nrows o = nrows i + fst (fst e) + snd (fst e) /\ cols o = cols i + fst (snd e) + snd (snd e) /\
  forall r c, 0 <= r < nrows o -> 0 <= c < cols o ->
  pixel o r c = Some match pixel i (r - fst (fst e)) (c - fst (snd e)) with Some v => v | None => cval end.
Proof.
  intros Hi H0 H1 o. set (p1 := padfromextend (snd e)). set (w := fst p1 + cols i + snd p1).
  set (L := map (pad_line p1 cval) (rows i)). set (c1 := cropfromextend (snd e) w).
  assert (Eo : rows o = map (crop_line c1) (line (fst e) (zrepeat cval w) L)) by reflexivity.
  assert (Ec : cols o = slice_len w c1) by reflexivity.
  assert (HL : zlen L = nrows i) by (unfold L; apply zlen_map).
  destruct (line_spec (fst e) (zrepeat cval w) L) as [Hlen Hnth]; [lia|]. rewrite HL in Hlen, Hnth.
  assert (Hci := proj1 Hi).
  assert (Hfp : fst p1 = Z.max (fst (snd e)) 0) by reflexivity.
  assert (Hsp : snd p1 = Z.max (snd (snd e)) 0) by reflexivity.
  assert (Hw : w = fst p1 + cols i + snd p1) by reflexivity.
  assert (Hc1 : c1 = (Z.max (- fst (snd e)) 0, w - Z.max (- snd (snd e)) 0)) by reflexivity.
  assert (Hcols : cols o = cols i + fst (snd e) + snd (snd e)).
  { rewrite Ec. unfold slice_len. rewrite Hc1. cbn [fst snd]. rewrite !slice_bound_in by lia. lia. }
  assert (Hrow : forall r l, znth (line (fst e) (zrepeat cval w) L) r = Some l -> 0 <= r < nrows i + fst (fst e) + snd (fst e) ->
    zlen (crop_line c1 l) = cols o /\ forall c, 0 <= c < cols o -> znth (crop_line c1 l) c =
      Some match pixel i (r - fst (fst e)) (c - fst (snd e)) with Some v => v | None => cval end).
  { intros r l El Hr. rewrite Hnth in El by exact Hr.
    unfold L in El. rewrite znth_map in El. rewrite Hcols. destruct (znth (rows i) (r - fst (fst e))) as [l0|] eqn:E0.
    - cbn [option_map] in El. injection El as <-.
      pose proof (zlen_row i _ _ Hi E0) as Hl0.
      destruct (line_spec (snd e) cval l0) as [A B]; [lia|].
      assert (El : line (snd e) cval l0 = crop_line c1 (pad_line p1 cval l0)).
      { unfold line. fold p1. rewrite pad_line_len by lia. rewrite Hl0. reflexivity. }
      rewrite <- El. split; [lia|]. intros c Hc. rewrite B by lia. rewrite pixel_znth, E0. reflexivity.
    - cbn [option_map] in El. injection El as <-. rewrite Hc1. unfold crop_line. cbn [fst snd].
      split; [rewrite py_slice_len by (rewrite ?zlen_zrepeat; lia); lia|].
      intros c Hc. rewrite py_slice_nth by (rewrite ?zlen_zrepeat; lia). rewrite znth_zrepeat.
      destruct (Z.leb_spec 0 (Z.max (- fst (snd e)) 0 + c)); [|lia].
      destruct (Z.ltb_spec (Z.max (- fst (snd e)) 0 + c) w); [|lia]. cbn [andb].
      rewrite pixel_znth, E0. reflexivity. }
  assert (Hnr : nrows o = nrows i + fst (fst e) + snd (fst e)).
  { unfold nrows at 1. rewrite Eo. fold (zlen (map (crop_line c1) (line (fst e) (zrepeat cval w) L))). rewrite zlen_map. exact Hlen. }
  split; [|split; [exact Hnr|split; [exact Hcols|]]].
  - split; [lia|]. rewrite Eo. apply Forall_map. apply Forall_forall. intros l Hl.
    apply In_nth_error in Hl as [k Hk].
    assert (Hk' : (k < length (line (fst e) (zrepeat cval w) L))%nat) by (apply nth_error_Some; congruence).
    unfold zlen in Hlen.
    refine (proj1 (Hrow (Z.of_nat k) l _ _)); [|lia].
    unfold znth. destruct (Z.ltb_spec (Z.of_nat k) 0); [lia|]. now rewrite Nat2Z.id.
  - intros r c Hr Hc. rewrite pixel_znth, Eo, znth_map. rewrite Hnr in Hr.
    destruct (znth_some (line (fst e) (zrepeat cval w) L) r) as [l El]; [lia|].
    rewrite El. cbn [option_map]. now apply (Hrow r l El Hr).
Qed.

(** C32: the image *)
Lemma image_extended {V} (cval : V) (i : img V) xmin ymin xmax ymax :
  rectangular i -> ymin <= ymax + 1 -> xmin <= xmax + 1 ->
  let s := setextend (nrows i, cols i) xmin ymin xmax ymax in
  let o := pad_and_crop cval s i in
  rectangular o /\
  (nrows o, cols o) = (ymax - ymin + 1, xmax - xmin + 1) /\
  dest_imgsize (nrows i, cols i) s = (nrows o, cols o) /\
  forall r c, 0 <= r < nrows o -> 0 <= c < cols o ->
  pixel o r c = Some match pixel i (ymin + r) (xmin + c) with Some v => v | None => cval end.
Proof.
  intros Hi Hy Hx s o.
  assert (E : o = crop_full (extend s) (pad_full cval (extend s) i)) by (apply pad_and_crop_full; [exact Hi|reflexivity|reflexivity]).
  assert (Ee : extend s = ((- ymin, ymax - nrows i + 1), (- xmin, xmax - cols i + 1))) by reflexivity.
  destruct (crop_pad_spec cval (extend s) i Hi) as (A & B & C & D); [rewrite Ee; cbn [fst snd]; lia..|].
  rewrite <- E in A, B, C, D. rewrite Ee in B, C, D. cbn [fst snd] in B, C, D.
  split; [exact A|]. split; [f_equal; lia|]. split.
  - unfold dest_imgsize. destruct (do_pad s || do_crop s) eqn:Ef.
    + rewrite Ee. cbn [fst snd]. f_equal; lia.
    + apply orb_false_iff in Ef as [F1 F2]. unfold s, setextend in F1, F2. cbn [do_pad do_crop] in F1, F2.
      apply any4_false in F1 as (P1 & P2 & P3 & P4). apply any4_false in F2 as (N1 & N2 & N3 & N4).
      cbn [fst snd] in *. apply Z.ltb_ge in P1, P2, P3, P4, N1, N2, N3, N4. f_equal; lia.
  - intros r c Hr Hc. rewrite (D r c Hr Hc).
    replace (r - - ymin) with (ymin + r) by lia. replace (c - - xmin) with (xmin + c) by lia. reflexivity.
Qed.

(** ** Axes *)
Local Open Scope Z_scope.
Lemma assign_gen {A} (l : list A) lo hi vals a b :
  slice_bound (zlen l) 0 lo = a -> slice_bound (zlen l) (zlen l) hi = b ->
  0 <= a <= b -> b <= zlen l -> zlen vals = b - a ->
  exists l', assign_slice l lo hi vals = Ok l' /\ zlen l' = zlen l /\
  forall z, 0 <= z < zlen l -> znth l' z = if (a <=? z) && (z <? b) then znth vals (z - a) else znth l z.
Proof.
  intros Ha Hb Hab Hbl Hv. unfold assign_slice. fold (zlen l). fold (zlen vals). rewrite Ha, Hb.
  replace (Z.max 0 (b - a)) with (b - a) by lia. destruct (Z.eqb_spec (zlen vals) (b - a)); [|lia].
  eexists. split; [reflexivity|].
  assert (H1 : zlen (firstn (Z.to_nat a) l) = a) by (unfold zlen in *; rewrite firstn_length; lia).
  assert (H2 : zlen (skipn (Z.to_nat (a + (b - a))) l) = zlen l - b) by (unfold zlen in *; rewrite skipn_length; lia).
  split; [rewrite !zlen_app; lia|].
  intros z Hz. rewrite znth_app by lia. rewrite H1. destruct (Z.ltb_spec z a).
  - rewrite znth_firstn. destruct (Z.ltb_spec z (Z.of_nat (Z.to_nat a))); [|lia].
    destruct (Z.leb_spec a z); [lia|]. reflexivity.
  - destruct (Z.leb_spec a z); [|lia]. rewrite znth_app by lia. rewrite Hv. destruct (Z.ltb_spec (z - a) (b - a)).
    + destruct (Z.ltb_spec z b); [reflexivity|lia].
    + destruct (Z.ltb_spec z b); [lia|]. cbn [andb]. rewrite znth_skipn by lia. f_equal. lia.
Qed.
Lemma zlen_arange n : zlen (arange n) = Z.max 0 n.
Proof. unfold arange, zlen. rewrite map_length, seq_length. lia. Qed.
Lemma znth_arange n z : 0 <= z < n -> znth (arange n) z = Some z.
Proof.
  intro H. unfold arange. rewrite znth_map. unfold znth. destruct (Z.ltb_spec z 0); [lia|].
  assert (E : nth_error (seq 0 (Z.to_nat n)) (Z.to_nat z) = Some (Z.to_nat z)).
  { rewrite (nth_error_nth' _ 0%nat) by (rewrite seq_length; lia). f_equal. rewrite seq_nth by lia. lia. }
  rewrite E. cbn [option_map]. f_equal. lia.
Qed.
Lemma py_get_znth {A} (l : list A) z a : 0 <= z -> znth l z = Some a -> py_get l z = Ok a.
Proof.
  intros Hz H. unfold znth in H. destruct (Z.ltb_spec z 0); [lia|]. apply py_get_ok. left. now split.
Qed.
Lemma py_get_znth_neg {A} (l : list A) z a : z < 0 -> znth l (z + zlen l) = Some a -> py_get l z = Ok a.
Proof.
  intros Hz H. unfold znth in H. destruct (Z.ltb_spec (z + zlen l) 0); [discriminate|]. unfold zlen in *.
  apply py_get_ok. right. split; [lia|]. split; [lia|exact H].
Qed.

Section Axis.
Variables (a : list Qc) (lo hi : Z).
Let n := zlen a.
Hypothesis Hr : range_of_axis n lo hi.
Let nleft := - lo.
Let nright := hi - n + 1.
Lemma axis_points : 2 <= n -> exists v0 v1 w1 w2,
  znth a 0 = Some v0 /\ znth a 1 = Some v1 /\ znth a (n - 1) = Some w1 /\ znth a (n - 2) = Some w2.
Proof.
  intro H. unfold n in *. destruct (znth_some a 0) as [v0 E0]; [lia|]. destruct (znth_some a 1) as [v1 E1]; [lia|].
  destruct (znth_some a (zlen a - 1)) as [w1 F1]; [lia|]. destruct (znth_some a (zlen a - 2)) as [w2 F2]; [lia|].
  exists v0, v1, w1, w2. auto.
Qed.
(* the values put before the axis *)
Lemma left_values v0 v1 k : znth a 0 = Some v0 -> znth a 1 = Some v1 -> 0 <= k < nleft ->
  axis_value a (lo + k) ((v0 - (v1 - v0) * Qc_of_Z nleft) + (v1 - v0) * Qc_of_Z k)%Qc.
Proof.
  intros E0 E1 Hk. right. left. unfold nleft in *. split; [lia|]. exists v0, v1.
  split; [exact E0|]. split; [exact E1|].
  rewrite Qc_of_Z_plus. replace lo with (- - lo) at 2 by lia. generalize (- lo). intro q.
  rewrite (Qc_of_Z_opp q). ring.
Qed.
Lemma right_values w1 w2 k : znth a (n - 1) = Some w1 -> znth a (n - 2) = Some w2 -> 0 <= k < nright ->
  axis_value a (n + k) ((w1 + (w1 - w2)) + (w1 - w2) * Qc_of_Z k)%Qc.
Proof.
  intros E0 E1 Hk. right. right. unfold n, zlen in *. split; [lia|]. exists w1, w2.
  unfold znth in E0, E1. destruct (Z.ltb_spec (Z.of_nat (length a) - 1) 0); [discriminate|].
  destruct (Z.ltb_spec (Z.of_nat (length a) - 2) 0); [discriminate|].
  split; [rewrite <- E0; f_equal; lia|]. split; [rewrite <- E1; f_equal; lia|].
  replace (Z.of_nat (length a) + k - Z.of_nat (length a) + 1) with (k + 1) by lia.
  rewrite Qc_of_Z_plus. change (Qc_of_Z 1) with 1%Qc. ring.
Qed.
Lemma inner_value z v : znth a z = Some v -> axis_value a z v.
Proof.
  intro E. left. unfold znth in E. destruct (Z.ltb_spec z 0); [discriminate|]. split; [|exact E].
  assert (Z.to_nat z < length a)%nat by (apply nth_error_Some; congruence). lia.
Qed.
Lemma transform_axis_range : exists l, transform_axis a nleft nright = Ok l /\ axis_range a lo hi l.
Proof.
  destruct Hr as (H1 & H2 & H3 & H4). pose proof (zlen_nonneg a) as Hn. fold n in Hn.
  unfold transform_axis. fold (zlen a). fold n.
  destruct (Z.ltb_spec (n + nleft + nright) 0); [unfold nleft, nright in *; lia|].
  set (axis0 := if nleft <? 0 then - nleft else 0). set (off0 := if nleft <? 0 then 0 else nleft).
  set (axisn := if nright <? 0 then n + nright else n).
  assert (Hax0 : axis0 = Z.max lo 0) by (unfold axis0, nleft; destruct (Z.ltb_spec (- lo) 0); lia).
  assert (Hoff : off0 = Z.max (- lo) 0) by (unfold off0, nleft; destruct (Z.ltb_spec (- lo) 0); lia).
  assert (Haxn : axisn = Z.min n (hi + 1)) by (unfold axisn, nright; destruct (Z.ltb_spec (hi - n + 1) 0); lia).
  clearbody axis0 off0 axisn. set (size := n + nleft + nright) in *. set (l0 := zrepeat None size).
  assert (Hsz : size = hi - lo + 1) by (unfold size, nleft, nright; lia).
  assert (L0 : zlen l0 = size) by (unfold l0; rewrite zlen_zrepeat; lia).
  (* first assignment *)
  assert (S1 : exists l1,
    (if 0 <? nleft then
        let! a1 := py_get a 1 in
        let! a0 := py_get a 0 in
        assign_slice l0 (Some 0) (Some nleft)
          (map (fun k => Some ((a0 - (a1 - a0) * Qc_of_Z nleft) + (a1 - a0) * Qc_of_Z k)%Qc) (arange nleft))
      else Ok l0) = Ok l1 /\ zlen l1 = size /\
    forall z, 0 <= z < off0 -> exists v, znth l1 z = Some (Some v) /\ axis_value a (lo + z) v).
  { destruct (Z.ltb_spec 0 nleft) as [Hl|Hl].
    - destruct axis_points as (v0 & v1 & w1 & w2 & E0 & E1 & F1 & F2); [unfold nleft, nright in *; lia|].
      rewrite (py_get_znth a 1 v1) by (lia || exact E1). cbn [bind]. rewrite (py_get_znth a 0 v0) by (lia || exact E0). cbn [bind].
      edestruct (assign_gen l0 (Some 0) (Some nleft)
        (map (fun k => Some ((v0 - (v1 - v0) * Qc_of_Z nleft) + (v1 - v0) * Qc_of_Z k)%Qc) (arange nleft))) as (l1 & A & B & C).
      { apply slice_bound_in. lia. }
      { apply slice_bound_in. rewrite L0. unfold nleft in *; lia. }
      { lia. }
      { rewrite L0. unfold nleft in *; lia. }
      { rewrite zlen_map, zlen_arange. lia. }
      exists l1. split; [exact A|]. split; [lia|]. intros z Hz. rewrite C by (rewrite L0; unfold nleft in *; lia).
      destruct (Z.leb_spec 0 z); [|lia]. destruct (Z.ltb_spec z nleft); [|unfold nleft in *; lia]. cbn [andb].
      rewrite znth_map, znth_arange by (unfold nleft in *; lia). cbn [option_map].
      eexists. split; [reflexivity|]. replace (z - 0) with z by lia. apply left_values; [exact E0|exact E1|unfold nleft in *; lia].
    - exists l0. split; [reflexivity|]. split; [exact L0|]. intros z Hz. unfold nleft in *. lia. }
  destruct S1 as (l1 & S1 & L1 & V1). cbn zeta. rewrite S1. cbn [bind].
  (* second assignment *)
  set (offn := off0 + axisn - axis0).
  assert (Hoffn : offn = Z.min n (hi + 1) - lo) by (unfold offn; lia). clearbody offn.
  edestruct (assign_gen l1 (Some off0) (Some offn) (map Some (py_slice a (Some axis0) (Some axisn)))) as (l2 & A2 & B2 & C2).
  { apply slice_bound_in. lia. }
  { apply slice_bound_in. lia. }
  { lia. }
  { lia. }
  { rewrite zlen_map, py_slice_len by (unfold n in *; lia). lia. }
  rewrite A2. cbn [bind].
  assert (V2 : forall z, 0 <= z < offn -> exists v, znth l2 z = Some (Some v) /\ axis_value a (lo + z) v).
  { intros z Hz. rewrite C2 by lia. destruct (Z.leb_spec off0 z); cbn [andb].
    - destruct (Z.ltb_spec z offn); [|lia]. rewrite znth_map, py_slice_nth by (unfold n in *; lia).
      replace (axis0 + (z - off0)) with (lo + z) by lia.
      destruct (znth_some a (lo + z)) as [v Ev]; [unfold n in *; lia|]. exists v. rewrite Ev. split; [reflexivity|].
      now apply inner_value.
    - apply V1. lia. }
  (* third assignment *)
  destruct (Z.ltb_spec 0 nright) as [Hright|Hright].
  - destruct axis_points as (v0 & v1 & w1 & w2 & E0 & E1 & F1 & F2); [unfold nright in *; lia|].
    rewrite (py_get_znth_neg a (-1) w1) by (lia || (rewrite <- F1; f_equal; unfold n; lia)). cbn [bind].
    rewrite (py_get_znth_neg a (-2) w2) by (lia || (rewrite <- F2; f_equal; unfold n; lia)). cbn [bind].
    destruct (assign_gen l2 (Some offn) None
       (map (fun k => Some ((w1 + (w1 - w2)) + (w1 - w2) * Qc_of_Z k)%Qc) (arange nright)) offn (zlen l2))
       as (l3 & A3 & B3 & C3).
    { apply slice_bound_in. lia. }
    { reflexivity. }
    { lia. }
    { lia. }
    { rewrite zlen_map, zlen_arange. unfold nright in *; lia. }
    exists l3. split; [exact A3|]. split; [unfold zlen in *; lia|]. intros k Hk.
    assert (E3 : nth_error l3 (Z.to_nat k) = znth l3 k) by (unfold znth; destruct (Z.ltb_spec k 0); [lia|reflexivity]).
    rewrite E3. rewrite C3 by lia. destruct (Z.leb_spec offn k); cbn [andb]; [|apply V2; lia].
    destruct (Z.ltb_spec k (zlen l2)); [|lia]. rewrite znth_map, znth_arange by (unfold nright in *; lia).
    cbn [option_map]. eexists. split; [reflexivity|].
    replace (lo + k) with (n + (k - offn)) by (unfold nright in *; lia).
    apply right_values; [exact F1|exact F2|unfold nright in *; lia].
  - exists l2. split; [reflexivity|]. split; [unfold zlen in *; lia|]. intros k Hk.
    assert (E3 : nth_error l2 (Z.to_nat k) = znth l2 k) by (unfold znth; destruct (Z.ltb_spec k 0); [lia|reflexivity]).
    rewrite E3. apply V2. unfold nright in *. lia.
Qed.
End Axis.

Lemma unchanged_range a lo hi : lo = 0 -> hi = zlen a - 1 -> axis_range a lo hi (map Some a).
Proof.
  intros -> ->. split; [unfold zlen; rewrite map_length; lia|]. intros k Hk.
  destruct (znth_some a k) as [v Ev]; [lia|]. exists v. split; [|now apply inner_value].
  rewrite nth_error_map. unfold znth in Ev. destruct (Z.ltb_spec k 0); [lia|]. now rewrite Ev.
Qed.
(** C32: the axes *)
Lemma axes_extended sd (s y x : list Qc) xmin ymin xmax ymax : 0 <= sd <= 2 ->
  range_of_axis (zlen y) ymin ymax -> range_of_axis (zlen x) xmin xmax ->
  exists y' x', transform_axes (setextend (zlen y, zlen x) xmin ymin xmax ymax) sd (stack_axes sd s y x)
                = Ok (stack_axes sd (map Some s) y' x')
                /\ axis_range y ymin ymax y' /\ axis_range x xmin xmax x'.
Proof.
  intros Hsd Hy Hx. unfold transform_axes.
  set (st := setextend (zlen y, zlen x) xmin ymin xmax ymax).
  destruct (negb (do_pad st) && negb (do_crop st)) eqn:Ef.
  - apply andb_true_iff in Ef as [F1 F2]. apply negb_true_iff in F1, F2. unfold st, setextend in F1, F2.
    cbn [do_pad do_crop] in F1, F2. apply any4_false in F1 as (P1 & P2 & P3 & P4). apply any4_false in F2 as (N1 & N2 & N3 & N4).
    cbn [fst snd] in *. apply Z.ltb_ge in P1, P2, P3, P4, N1, N2, N3, N4.
    exists (map Some y), (map Some x). split.
    + f_equal. unfold stack_axes. destruct (sd =? 0); [reflexivity|]. destruct (sd =? 1); reflexivity.
    + split; apply unchanged_range; lia.
  - destruct (transform_axis_range y ymin ymax Hy) as (y' & Ey & Ry).
    destruct (transform_axis_range x xmin xmax Hx) as (x' & Ex & Rx).
    exists y', x'. split; [|now split].
    assert (D0 : fst (fst (extend st)) = - ymin) by reflexivity.
    assert (D1 : snd (fst (extend st)) = ymax - zlen y + 1) by reflexivity.
    assert (D2 : fst (snd (extend st)) = - xmin) by reflexivity.
    assert (D3 : snd (snd (extend st)) = xmax - zlen x + 1) by reflexivity.
    rewrite D0, D1, D2, D3. clearbody st.
    assert (Hc : sd = 0 \/ sd = 1 \/ sd = 2) by lia.
    destruct Hc as [->|[->| ->]]; cbn -[transform_axis]; rewrite Ey; cbn -[transform_axis]; rewrite Ex; reflexivity.
Qed.
(* an axis of five points and an image of five rows from which eight are cut on one side and
   to which five are added on the other *)
Lemma overcrop : transform_axis [1; 1; 1; 1; 1]%Qc (-8) 5 = Err ValueError
  /\ zlen (line (-8, 5) 0 [1; 2; 3; 4; 5]) = 2.
Proof. split; reflexivity. Qed.
