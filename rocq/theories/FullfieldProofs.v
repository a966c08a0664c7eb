From Verif Require Export FullfieldSpec BaseProofs.
From Verif Require Import AxisProofs ListToolsProofs LutProofs.
From Verif Require ShelllineProofs.
From Coq Require Import ArithRing.
Local Open Scope list_scope.
Local Open Scope nat_scope.

(* ---- sums ---- *)
Lemma Sum_S n f : Sum (S n) f = (Sum n f + f n)%Qc.
Proof.
  unfold Sum. rewrite seq_S. cbn [plus]. rewrite map_app. cbn [map]. generalize (map f (seq 0 n)). intro l.
  induction l as [|a l IH]; cbn [app fold_right]; [ring|]. rewrite IH. ring.
Qed.
Lemma sumn_Sum n f : sumn n f = Sum n f.
Proof. induction n as [|n IH]; [reflexivity|]. rewrite Sum_S, <- IH. reflexivity. Qed.
Lemma Sum_ext n f g : (forall k, k < n -> f k = g k) -> Sum n f = Sum n g.
Proof.
  induction n as [|n IH]; intro H; [reflexivity|]. rewrite !Sum_S, IH, (H n) by (intros; try apply H; lia). reflexivity.
Qed.
Lemma Sum_plus n f g : Sum n (fun k => f k + g k)%Qc = (Sum n f + Sum n g)%Qc.
Proof. induction n as [|n IH]; [cbn; ring|]. rewrite !Sum_S, IH. ring. Qed.
Lemma Sum_zero n : Sum n (fun _ => 0%Qc) = 0%Qc.
Proof. induction n as [|n IH]; [reflexivity|]. rewrite Sum_S, IH. ring. Qed.
Lemma Sum_swap n m f : Sum n (fun i => Sum m (fun j => f i j)) = Sum m (fun j => Sum n (fun i => f i j)).
Proof.
  induction n as [|n IH]; [cbn; symmetry; apply Sum_zero|]. rewrite Sum_S, IH, <- Sum_plus. apply Sum_ext. intros k _. rewrite Sum_S. reflexivity.
Qed.
Lemma Sum_split n m f : Sum (n + m) f = (Sum n f + Sum m (fun k => f (n + k)%nat))%Qc.
Proof.
  induction m as [|m IH]; [rewrite Nat.add_0_r; cbn; ring|]. rewrite Nat.add_succ_r, !Sum_S, IH. ring.
Qed.
Lemma Sum_blocks s r f : Sum (s * r) f = Sum s (fun i => Sum r (fun a => f (i * r + a))).
Proof.
  induction s as [|s IH]; [reflexivity|]. rewrite Sum_S, <- IH. replace (S s * r) with (s * r + r) by lia. apply Sum_split.
Qed.
Lemma Sum_mult n c f : Sum n (fun k => c * f k)%Qc = (c * Sum n f)%Qc.
Proof. induction n as [|n IH]; [cbn; ring|]. rewrite !Sum_S, IH. ring. Qed.

(* ---- rebinning ---- *)
Lemma rebin_ok img r0 r1 : 0 < r0 -> 0 < r1 ->
  exists out, execrebin img (r0, r1) = Ok out /\ rows out = rows img / r0 /\ cols out = cols img / r1 /\
    forall i j, j < cols out -> px out i j = Sum r0 (fun a => Sum r1 (fun b => px img (i * r0 + a) (j * r1 + b))).
Proof.
  intros H0 H1. unfold execrebin. destruct (Nat.eqb_spec r0 0); [lia|]. destruct (Nat.eqb_spec r1 0); [lia|]. cbn [orb].
  eexists. split; [reflexivity|]. split; [reflexivity|]. split; [reflexivity|]. cbn [px cols]. intros i j Hj.
  rewrite sumn_Sum. apply Sum_ext. intros a _. rewrite sumn_Sum. apply Sum_ext. intros b Hb.
  set (s1 := cols img / r1) in *.
  assert (j * r1 + b < s1 * r1) as Hlt by nia.
  assert (((i * r0 + a) * s1 + j) * r1 + b = (s1 * r1) * (i * r0 + a) + (j * r1 + b)) as -> by ring.
  rewrite (Nat.mul_comm (s1 * r1) (i * r0 + a)), Nat.div_add_l by lia. rewrite (Nat.div_small _ _ Hlt), Nat.add_0_r.
  rewrite (Nat.add_comm ((i * r0 + a) * (s1 * r1))), Nat.mod_add by lia. rewrite (Nat.mod_small _ _ Hlt). reflexivity.
Qed.
Lemma rebin_zero img r : fst r = 0 \/ snd r = 0 -> execrebin img r = Err ZeroDivisionError.
Proof. destruct r as [r0 r1]. cbn [fst snd]. intros [-> | ->]; unfold execrebin; [reflexivity|]. rewrite orb_true_r. reflexivity. Qed.
Lemma rebin_conserves img r0 r1 out : 0 < r0 -> 0 < r1 -> execrebin img (r0, r1) = Ok out ->
  Sum (rows out) (fun i => Sum (cols out) (fun j => px out i j)) =
  Sum (rows img / r0 * r0) (fun i => Sum (cols img / r1 * r1) (fun j => px img i j)).
Proof.
  intros H0 H1 E. destruct (rebin_ok img r0 r1 H0 H1) as (out' & E' & R & C & P). assert (out' = out) as -> by congruence.
  rewrite Sum_blocks, R. apply Sum_ext. intros i _. rewrite <- C.
  transitivity (Sum (cols out) (fun j => Sum r0 (fun a => Sum r1 (fun b => px img (i * r0 + a) (j * r1 + b))))).
  { apply Sum_ext. intros j Hj. apply P, Hj. }
  rewrite Sum_swap. apply Sum_ext. intros a _. rewrite Sum_blocks. reflexivity.
Qed.

(* ---- regions ---- *)
Lemma slice_bound_range n d x : (0 <= n)%Z -> (0 <= d <= n)%Z -> (0 <= slice_bound n d x <= n)%Z.
Proof. intros H Hd. unfold slice_bound. destruct x as [v|]; [|exact Hd]. destruct (v <? 0)%Z; lia. Qed.
Lemma skipn_seq k a n : skipn k (seq a n) = seq (a + k) (n - k).
Proof.
  revert a n. induction k as [|k IH]; intros a n; [cbn; f_equal; lia|]. destruct n as [|n]; [reflexivity|]. cbn [seq skipn]. rewrite IH. f_equal. lia.
Qed.
Lemma firstn_seq' k a n : k <= n -> firstn k (seq a n) = seq a k.
Proof.
  revert a n. induction k as [|k IH]; intros a n H; [reflexivity|]. destruct n as [|n]; [lia|]. cbn [seq firstn]. rewrite IH by lia. reflexivity.
Qed.
Lemma sliced_takes n s i0 ni : sliced n s = (i0, ni) -> takes n s i0 ni.
Proof.
  unfold sliced. intro H. pose proof (slice_bound_range (Z.of_nat n) 0 (fst s) ltac:(lia) ltac:(lia)) as Hi.
  pose proof (slice_bound_range (Z.of_nat n) (Z.of_nat n) (snd s) ltac:(lia) ltac:(lia)) as Hj.
  injection H as Ei En. unfold takes, py_slice. rewrite seq_length.
  set (i := slice_bound (Z.of_nat n) 0 (fst s)) in *. set (j := slice_bound (Z.of_nat n) (Z.of_nat n) (snd s)) in *. clearbody i j.
  rewrite skipn_seq. cbn [plus]. split; [|lia]. rewrite firstn_seq' by lia. congruence.
Qed.
Lemma roi_ok img s t : exists i0 ni j0 nj, takes (rows img) s i0 ni /\ takes (cols img) t j0 nj /\
  rows (execroi img (s, t)) = ni /\ cols (execroi img (s, t)) = nj /\ forall i j, px (execroi img (s, t)) i j = px img (i0 + i) (j0 + j).
Proof.
  unfold execroi. cbn [fst snd]. destruct (sliced (rows img) s) as [i0 ni] eqn:E1. destruct (sliced (cols img) t) as [j0 nj] eqn:E2.
  exists i0, ni, j0, nj. repeat split; try (apply sliced_takes; assumption);
  first [apply (sliced_takes _ _ _ _ E1) | apply (sliced_takes _ _ _ _ E2)].
Qed.
(* the raw data: rebinned region of interest *)
Lemma procraw_ok p img : 0 < fst (p_rebin p) -> 0 < snd (p_rebin p) ->
  exists out i0 ni j0 nj, procraw p img = Ok out /\ region (p_roi p) img i0 ni j0 nj /\
    rows out = ni / fst (p_rebin p) /\ cols out = nj / snd (p_rebin p) /\
    forall i j, j < cols out -> px out i j =
      Sum (fst (p_rebin p)) (fun a => Sum (snd (p_rebin p)) (fun b => px img (i0 + (i * fst (p_rebin p) + a)) (j0 + (j * snd (p_rebin p) + b)))).
Proof.
  intros H0 H1. unfold procraw.
  assert (exists img' i0 ni j0 nj, match p_roi p with Some roi => execroi img roi | None => img end = img' /\ region (p_roi p) img i0 ni j0 nj /\
    rows img' = ni /\ cols img' = nj /\ forall i j, px img' i j = px img (i0 + i) (j0 + j)) as (img' & i0 & ni & j0 & nj & -> & Rg & R & C & P).
  { destruct (p_roi p) as [[s t]|].
    - destruct (roi_ok img s t) as (i0 & ni & j0 & nj & T1 & T2 & R & C & P). exists (execroi img (s, t)), i0, ni, j0, nj.
      repeat split; try assumption; first [apply T1 | apply T2].
    - exists img, 0, (rows img), 0, (cols img). repeat split. }
  destruct (p_rebin p) as [r0 r1]. cbn [fst snd] in *.
  destruct ((1 <? r0) || (1 <? r1)) eqn:E.
  - destruct (rebin_ok img' r0 r1 H0 H1) as (out & E1 & R1 & C1 & P1). exists out, i0, ni, j0, nj. split; [exact E1|]. split; [exact Rg|].
    split; [congruence|]. split; [congruence|]. intros i j Hj. rewrite (P1 i j Hj). apply Sum_ext. intros a _. apply Sum_ext. intros b _. apply P.
  - apply orb_false_iff in E. destruct E as [E0 E1]. apply Nat.ltb_ge in E0, E1. assert (r0 = 1) as -> by lia. assert (r1 = 1) as -> by lia.
    exists img', i0, ni, j0, nj. split; [reflexivity|]. split; [exact Rg|]. rewrite !Nat.div_1_r. split; [exact R|]. split; [exact C|].
    intros i j _. rewrite P. unfold Sum. cbn [seq map fold_right]. rewrite !Nat.mul_1_r, !Nat.add_0_r, !Qcplus_0_r. reflexivity.
Qed.

(* ---- sums over lists ---- *)
Lemma SumOf_app {A} (f : A -> Qc) l m : SumOf f (l ++ m) = (SumOf f l + SumOf f m)%Qc.
Proof. unfold SumOf. induction l as [|a l IH]; cbn [app map fold_right]; [ring|]. rewrite IH. ring. Qed.
Lemma SumOf_cons {A} (f : A -> Qc) a l : SumOf f (a :: l) = (f a + SumOf f l)%Qc.
Proof. reflexivity. Qed.
Lemma SumOf_one {A} (f : A -> Qc) a : SumOf f [a] = f a.
Proof. unfold SumOf. cbn [map fold_right]. ring. Qed.
Lemma SumOf_ext {A} (f g : A -> Qc) l : (forall a, In a l -> f a = g a) -> SumOf f l = SumOf g l.
Proof.
  induction l as [|a l IH]; intro H; [reflexivity|]. rewrite !SumOf_cons, IH, (H a) by (intros; try apply H; auto with datatypes). reflexivity.
Qed.

(* ---- the dark library ---- *)
Lemma str_decides : decides_eq String.eqb.
Proof. intros a b. apply String.eqb_eq. Qed.
Definition dark_holds (p : params) (r c : nat) (d : list (file * image)) (l : lib) : Prop :=
  forall t, match lookup String.eqb t l with
            | None => same_time p t d = []
            | Some e => same_time p t d <> [] /\ rows (d_data e) = r /\ cols (d_data e) = c /\ d_frames e = SumOf frames (same_time p t d) /\
                forall i j, px (d_data e) i j = SumOf (fun x => px (snd x) i j) (same_time p t d)
            end.
Lemma same_time_app p t a b : same_time p t (a ++ b) = same_time p t a ++ same_time p t b.
Proof. apply filter_app. Qed.
Lemma dark_step p r c d l f img : dark_holds p r c d l -> procraw p (f_data f) = Ok img -> rows img = r -> cols img = c ->
  exists l', add_dark p l f = Ok l' /\ dark_holds p r c (d ++ [(f, img)]) l'.
Proof.
  intros H E R C. unfold add_dark. rewrite E. cbn [bind]. pose proof (H (frametime p f)) as Hf.
  assert (forall t, same_time p t [(f, img)] = if String.eqb (frametime p f) t then [(f, img)] else []) as One.
  { intro t. unfold same_time, frametime. cbn [filter fst]. reflexivity. }
  destruct (lookup String.eqb (frametime p f) l) as [e|] eqn:L.
  - destruct Hf as (N & Re & Ce & Fe & Pe). unfold add. rewrite Re, Ce, R, C, !Nat.eqb_refl. cbn [andb bind]. eexists. split; [reflexivity|].
    intro t. destruct (String.eqb_spec (frametime p f) t) as [<-|Ne].
    + rewrite (lookup_assign_same _ str_decides). rewrite same_time_app, One, String.eqb_refl. cbn [d_data d_frames rows cols px].
      split; [intro X; apply app_eq_nil in X; tauto|]. split; [reflexivity|]. split; [reflexivity|].
      split; [rewrite SumOf_app, SumOf_one, Fe; reflexivity|].
      intros i j. rewrite SumOf_app, SumOf_one, Pe. reflexivity.
    + rewrite (lookup_assign_other _ str_decides) by congruence. rewrite same_time_app, One.
      destruct (String.eqb_spec (frametime p f) t) as [?|_]; [contradiction|]. rewrite app_nil_r. apply H.
  - eexists. split; [reflexivity|]. intro t. destruct (String.eqb_spec (frametime p f) t) as [<-|Ne].
    + rewrite (lookup_assign_same _ str_decides). rewrite same_time_app, One, String.eqb_refl, Hf. cbn [d_data d_frames app].
      split; [discriminate|]. split; [exact R|]. split; [exact C|]. split; [rewrite SumOf_one; reflexivity|].
      intros i j. rewrite SumOf_one. reflexivity.
    + rewrite (lookup_assign_other _ str_decides) by congruence. rewrite same_time_app, One.
      destruct (String.eqb_spec (frametime p f) t) as [?|_]; [contradiction|]. rewrite app_nil_r. apply H.
Qed.
Lemma dark_all p r c : forall m d l, dark_holds p r c d l -> prepared p m -> shaped r c m ->
  exists l', darklibrary p l (map fst m) = Ok l' /\ dark_holds p r c (d ++ m) l'.
Proof.
  induction m as [|[f img] m IH]; intros d l H Pm Sm.
  - exists l. rewrite app_nil_r. split; [reflexivity|exact H].
  - inversion Pm as [|? ? P1 Pm']; subst. inversion Sm as [|? ? [R1 C1] Sm']; subst. cbn [fst snd] in *.
    destruct (dark_step p (rows img) (cols img) d l f img H P1 eq_refl eq_refl) as (l1 & E1 & H1).
    destruct (IH (d ++ [(f, img)]) l1 H1 Pm' Sm') as (l2 & E2 & H2).
    exists l2. cbn [map darklibrary fst]. rewrite E1. cbn [bind]. split; [exact E2|]. rewrite <- app_assoc in H2. exact H2.
Qed.
Lemma dark_library p r c d : prepared p d -> shaped r c d -> exists l, darklibrary p [] (map fst d) = Ok l /\ dark_holds p r c d l.
Proof.
  intros P S. destruct (dark_all p r c d [] []) as (l & E & H); [intro t; reflexivity | exact P | exact S|]. exists l. split; [exact E|exact H].
Qed.

Section Number.
Variable number : string -> Qc.

Lemma subtract_ok p r c d l t n img : dark_holds p r c d l -> rows img = r -> cols img = c -> has_frames p d t ->
  exists out, subtract number p l t n img = Ok (Some out) /\ rows out = r /\ cols out = c /\
    forall i j, px out i j = (px img i j - dark_rate number p d t i j * n)%Qc.
Proof.
  intros H R C F. unfold subtract, dark_rate. specialize (H t). destruct (lookup String.eqb t l) as [e|] eqn:L.
  - destruct H as (N & Re & Ce & Fe & Pe). rewrite R, C, Re, Ce, !Nat.eqb_refl. cbn [andb].
    destruct F as [F|F]; [contradiction|]. rewrite Fe. pose proof F as F'. apply Qc_eqb_false in F'. rewrite F'. eexists. split; [reflexivity|].
    split; [reflexivity|]. split; [reflexivity|]. intros i j. cbn [px]. rewrite Pe. destruct (same_time p t d) as [|x m]; [contradiction|]. reflexivity.
  - rewrite H. eexists. split; [reflexivity|]. split; [exact R|]. split; [exact C|]. intros i j. cbn [px]. field. discriminate.
Qed.

Definition net (p : params) (d : list (file * image)) (i j : nat) (x : file * image) : Qc := (px (snd x) i j - dark_rate number p d (time_of p x) i j * frames x)%Qc.
Lemma images_ok p r c d l : dark_holds p r c d l -> forall fs a t, prepared p fs -> shaped r c fs -> Forall (fun x => has_frames p d (time_of p x)) fs ->
  rows a = r -> cols a = c ->
  exists out, images number p l (map fst fs) (Some (Some a, t)) = Ok (Some (Some out, (t + duration number p fs)%Qc)) /\ rows out = r /\ cols out = c /\
    forall i j, px out i j = (px a i j + SumOf (net p d i j) fs)%Qc.
Proof.
  intros H. induction fs as [|[f img] fs IH]; intros a t Pf Sf Ff Ra Ca.
  - exists a. cbn [map images]. unfold duration, SumOf. cbn [map fold_right]. rewrite Qcplus_0_r. repeat split; try assumption. intros. ring.
  - inversion Pf as [|? ? P1 Pf']; subst. inversion Sf as [|? ? [R1 C1] Sf']; subst. inversion Ff as [|? ? F1 Ff']; subst. cbn [fst snd] in *.
    cbn [map images fst]. rewrite P1. cbn [bind].
    destruct (subtract_ok p (rows a) (cols a) d l (frametime p f) (nframes f) img H R1 C1 F1) as (s & -> & Rs & Cs & Ps). cbn [bind accumulate].
    unfold add. rewrite Rs, Cs, !Nat.eqb_refl. cbn [andb bind].
    destruct (IH (Image (rows a) (cols a) (fun i j => px a i j + px s i j)%Qc) (t + number (frametime p f) * nframes f)%Qc Pf' Sf' Ff' eq_refl eq_refl) as (out & E & Ro & Co & Po).
    exists out. rewrite E. split; [|split; [exact Ro|split; [exact Co|]]].
    + do 3 f_equal. unfold duration. rewrite SumOf_cons. unfold time_of, frames, frametime, nframes. cbn [fst]. ring.
    + intros i j. rewrite Po. cbn [px]. rewrite SumOf_cons, Ps. unfold net, time_of, frames, frametime, nframes. cbn [fst snd]. ring.
Qed.
Lemma normalized_ok p r c d l fs : dark_holds p r c d l -> prepared p fs -> shaped r c fs -> Forall (fun x => has_frames p d (time_of p x)) fs ->
  fs <> [] -> duration number p fs <> 0%Qc ->
  exists out, normalized number p l (map fst fs) = Ok (Some out) /\ rows out = r /\ cols out = c /\
    forall i j, (px out i j * duration number p fs)%Qc = SumOf (fun x => px (snd x) i j - frames x * dark_rate number p d (time_of p x) i j)%Qc fs.
Proof.
  intros H Pf Sf Ff N D. destruct fs as [|[f img] fs]; [contradiction|].
  inversion Pf as [|? ? P1 Pf']; subst. inversion Sf as [|? ? [R1 C1] Sf']; subst. inversion Ff as [|? ? F1 Ff']; subst. cbn [fst snd] in *.
  unfold normalized. cbn [map images fst]. rewrite P1. cbn [bind].
  destruct (subtract_ok p (rows img) (cols img) d l (frametime p f) (nframes f) img H eq_refl eq_refl F1) as (s & -> & Rs & Cs & Ps). cbn [bind accumulate].
  destruct (images_ok p (rows img) (cols img) d l H fs s (number (frametime p f) * nframes f)%Qc Pf' Sf' Ff' Rs Cs) as (out & E & Ro & Co & Po).
  rewrite E. cbn [bind].
  assert (number (frametime p f) * nframes f + duration number p fs = duration number p ((f, img) :: fs))%Qc as -> by reflexivity.
  pose proof D as D'. apply Qc_eqb_false in D'. rewrite D'. eexists. split; [reflexivity|]. split; [exact Ro|]. split; [exact Co|].
  intros i j. cbn [px]. rewrite Po, Ps, SumOf_cons.
  assert (SumOf (net p d i j) fs = SumOf (fun x => px (snd x) i j - frames x * dark_rate number p d (time_of p x) i j)%Qc fs) as ->.
  { apply SumOf_ext. intros x _. unfold net. ring. }
  generalize (SumOf (fun x => px (snd x) i j - frames x * dark_rate number p d (time_of p x) i j)%Qc fs). intro q.
  unfold time_of, frames, frametime, nframes. cbn [fst snd]. field. exact D.
Qed.
Lemma normalized_none p l : normalized number p l [] = Err TypeError.
Proof. reflexivity. Qed.

(* dark and data together *)
Lemma intensity p r c d fs : prepared p d -> shaped r c d -> prepared p fs -> shaped r c fs -> Forall (fun x => has_frames p d (time_of p x)) fs ->
  fs <> [] -> duration number p fs <> 0%Qc ->
  exists l out, darklibrary p [] (map fst d) = Ok l /\ normalized number p l (map fst fs) = Ok (Some out) /\ rows out = r /\ cols out = c /\
    forall i j, (px out i j * duration number p fs)%Qc = SumOf (fun x => px (snd x) i j - frames x * dark_rate number p d (time_of p x) i j)%Qc fs.
Proof.
  intros Pd Sd Pf Sf Ff N D. destruct (dark_library p r c d Pd Sd) as (l & E & H). exists l.
  destruct (normalized_ok p r c d l fs H Pf Sf Ff N D) as (out & Eo & Ro & Co & Po). exists out. repeat split; assumption.
Qed.
Lemma SumOf_scale {A} (f : A -> Qc) (q : Qc) l : SumOf (fun x => f x * q)%Qc l = (SumOf f l * q)%Qc.
Proof. induction l as [|a l IH]; [cbn; ring|]. rewrite !SumOf_cons, IH. ring. Qed.
Lemma recovered p r c d fs (I : nat -> nat -> Qc) : prepared p d -> shaped r c d -> prepared p fs -> shaped r c fs -> Forall (fun x => has_frames p d (time_of p x)) fs ->
  fs <> [] -> duration number p fs <> 0%Qc ->
  (forall x i j, In x fs -> px (snd x) i j = (frames x * (number (time_of p x) * I i j + dark_rate number p d (time_of p x) i j))%Qc) ->
  exists l out, darklibrary p [] (map fst d) = Ok l /\ normalized number p l (map fst fs) = Ok (Some out) /\ rows out = r /\ cols out = c /\
    forall i j, px out i j = I i j.
Proof.
  intros Pd Sd Pf Sf Ff N D M. destruct (intensity p r c d fs Pd Sd Pf Sf Ff N D) as (l & out & E1 & E2 & R & C & P).
  exists l, out. repeat (split; [assumption|]). intros i j. specialize (P i j).
  assert (SumOf (fun x => px (snd x) i j - frames x * dark_rate number p d (time_of p x) i j)%Qc fs = (duration number p fs * I i j)%Qc) as E.
  { unfold duration. rewrite <- SumOf_scale. apply SumOf_ext. intros x Hx. rewrite (M x i j Hx). ring. }
  rewrite E in P. assert (px out i j = px out i j * duration number p fs / duration number p fs)%Qc as -> by (field; exact D). rewrite P. field. exact D.
Qed.
End Number.

(* ---- region from the header ---- *)
Lemma getroi_label f x y nx ny l : f_roi f = Some (x :: y :: nx :: ny :: l) -> getroi f = Ok [y; x; ny; nx].
Proof.
  intro E. unfold getroi. rewrite E. unfold py_get, py_pos. cbn [List.length].
  repeat match goal with |- context [(?a <? ?b)%Z] => destruct (Z.ltb_spec a b); try lia end. cbn [andb].
  repeat match goal with |- context [(?a <=? ?b)%Z] => destruct (Z.leb_spec a b); try lia end. reflexivity.
Qed.

(* ---- axes ---- *)
Definition resolve (n : Z) (x : option Z) (dflt : Z) : Z := match x with None => dflt | Some v => if (v <? 0)%Z then (v + n)%Z else v end.
Lemma Sum_arith d o : (Sum d (fun k => o + Qc_of_Z (Z.of_nat k)) * Qc_of_Z 2)%Qc = (Qc_of_Z (Z.of_nat d) * (o * Qc_of_Z 2 + Qc_of_Z (Z.of_nat d) - 1))%Qc.
Proof.
  induction d as [|d IH]; [cbn [Sum]; change (Qc_of_Z (Z.of_nat 0)) with 0%Qc; unfold Sum; cbn; ring|].
  rewrite Sum_S. assert (Qc_of_Z (Z.of_nat (S d)) = Qc_of_Z (Z.of_nat d) + 1)%Qc as -> by (rewrite Nat2Z.inj_succ; unfold Z.succ; rewrite Qc_of_Z_plus; reflexivity).
  rewrite Qcmult_plus_distr_l, IH. change (Qc_of_Z 2) with (1 + 1)%Qc. ring.
Qed.

Lemma seq_inj a n b m : 0 < n -> seq a n = seq b m -> a = b /\ n = m.
Proof.
  intros H E. assert (n = m) as -> by (rewrite <- (seq_length n a), <- (seq_length m b); congruence). split; [|reflexivity].
  destruct m as [|m]; [lia|]. cbn [seq] in E. congruence.
Qed.
Lemma takes_sliced n s i0 ni : takes n s i0 ni -> 0 < ni -> sliced n s = (i0, ni).
Proof.
  intros [T B] H. destruct (sliced n s) as [a m] eqn:E. destruct (sliced_takes _ _ _ _ E) as [T' _]. rewrite T in T'.
  apply seq_inj in T'; [|exact H]. destruct T' as [-> ->]. reflexivity.
Qed.
Lemma bin_mean o d i : 0 < d -> (Qc_of_Z (Z.of_nat d) * (Qc_of_Z o + Qc_of_Z (Z.of_nat d - 1) / Qc_of_Z 2 + Qc_of_Z i * Qc_of_Z (Z.of_nat d)))%Qc =
  Sum d (fun k => Qc_of_Z (o + i * Z.of_nat d + Z.of_nat k))%Qc.
Proof.
  intro H. pose proof (Sum_arith d (Qc_of_Z (o + i * Z.of_nat d))) as A.
  rewrite (Sum_ext d (fun k => Qc_of_Z (o + i * Z.of_nat d + Z.of_nat k)) (fun k => Qc_of_Z (o + i * Z.of_nat d) + Qc_of_Z (Z.of_nat k))%Qc) by (intros; apply Qc_of_Z_plus).
  rewrite Qc_of_Z_plus, Qc_of_Z_mult in A |- *. rewrite Qc_of_Z_minus. change (Qc_of_Z 1) with 1%Qc. revert A.
  generalize (Sum d (fun k => Qc_of_Z o + Qc_of_Z i * Qc_of_Z (Z.of_nat d) + Qc_of_Z (Z.of_nat k))%Qc). intros S A.
  generalize dependent (Qc_of_Z (Z.of_nat d)). intros D A. change (Qc_of_Z 2) with (1 + 1)%Qc in *.
  assert (S = S * (1 + 1) / (1 + 1))%Qc as -> by (field; discriminate). rewrite A. field. discriminate.
Qed.
Lemma linspace_values x0 d n : (0 <= n)%Z -> AxisModel.linspace x0 (x0 + Qc_of_Z ((n - 1) * Z.of_nat d)) n =
  Ok (map (fun i => x0 + Qc_of_Z (Z.of_nat i) * Qc_of_Z (Z.of_nat d))%Qc (seq 0 (Z.to_nat n))).
Proof.
  intro H. destruct (Z.eq_dec n 0) as [-> |N0]; [reflexivity|]. destruct (Z.eq_dec n 1) as [-> |N1].
  - unfold AxisModel.linspace. cbn [Z.ltb Z.eqb Z.compare Pos.compare Pos.compare_cont Pos.eqb]. change (Z.to_nat 1) with 1. cbn [seq map Z.of_nat].
    do 2 f_equal. change (Qc_of_Z 0) with 0%Qc. ring.
  - rewrite linspace_map by lia. f_equal. unfold AxisModel.arange. rewrite map_map. apply map_ext. intro i. f_equal. f_equal.
    rewrite Qc_of_Z_mult. assert (Qc_of_Z (n - 1) <> 0%Qc) as Nz. { intro X. change 0%Qc with (Qc_of_Z 0) in X. apply Qc_of_Z_inj in X. lia. }
    generalize dependent (Qc_of_Z (n - 1)). intros q Nz. field. exact Nz.
Qed.
Lemma axis_core o n d : 0 < d -> (0 <= n)%Z ->
  exists l, (let n := (n / Z.of_nat d)%Z in
    let x0 := (Qc_of_Z o + Qc_of_Z (Z.of_nat d - 1) / Qc_of_Z 2)%Qc in
    let x1 := (x0 + Qc_of_Z ((n - 1) * Z.of_nat d))%Qc in AxisModel.linspace x0 x1 n) = Ok l /\
  List.length l = Z.to_nat n / d /\
  forall i x, nth_error l i = Some x -> (Qc_of_Z (Z.of_nat d) * x)%Qc = Sum d (fun k => Qc_of_Z (o + Z.of_nat i * Z.of_nat d + Z.of_nat k)).
Proof.
  intros Hd Hn. cbv zeta. pose proof (Z.div_pos n (Z.of_nat d) Hn ltac:(lia)) as Hp. rewrite linspace_values by exact Hp.
  eexists. split; [reflexivity|]. split.
  - rewrite map_length, seq_length. rewrite <- (Z2Nat.id n) at 1 by exact Hn. rewrite <- Nat2Z.inj_div. apply Nat2Z.id.
  - intros i x Hx. rewrite nth_error_map in Hx. destruct (nth_error (seq 0 (Z.to_nat (n / Z.of_nat d))) i) as [k|] eqn:E; [|discriminate].
    assert (k = i) as ->.
    { assert (i < Z.to_nat (n / Z.of_nat d)) as Hi by (rewrite <- (seq_length (Z.to_nat (n / Z.of_nat d)) 0); apply nth_error_Some; congruence).
      rewrite (nth_error_nth' _ 0) in E by (rewrite seq_length; exact Hi). rewrite seq_nth in E by exact Hi. cbn [plus] in E. congruence. }
    cbn [option_map] in Hx. assert (x = (Qc_of_Z o + Qc_of_Z (Z.of_nat d - 1) / Qc_of_Z 2 + Qc_of_Z (Z.of_nat i) * Qc_of_Z (Z.of_nat d))%Qc) as -> by congruence.
    apply bin_mean, Hd.
Qed.
Lemma axis_all o n d : 0 < d -> (0 <= n)%Z -> exists l, axis_values o n None d = Ok l /\ List.length l = Z.to_nat n / d /\
  forall i x, nth_error l i = Some x -> (Qc_of_Z (Z.of_nat d) * x)%Qc = Sum d (fun k => Qc_of_Z (o + Z.of_nat i * Z.of_nat d + Z.of_nat k)).
Proof. intros Hd Hn. unfold axis_values. destruct (Nat.eqb_spec d 0); [lia|]. apply axis_core; assumption. Qed.
Lemma axis_part o n a b d i0 ni : 0 < d -> (0 <= n)%Z -> within n a -> within n b -> takes (Z.to_nat n) (a, b) i0 ni -> 0 < ni ->
  exists l, axis_values o n (Some (a, b)) d = Ok l /\ List.length l = ni / d /\
  forall i x, nth_error l i = Some x -> (Qc_of_Z (Z.of_nat d) * x)%Qc = Sum d (fun k => Qc_of_Z (o + Z.of_nat i0 + Z.of_nat i * Z.of_nat d + Z.of_nat k)).
Proof.
  intros Hd Hn Ha Hb T Hni. apply takes_sliced in T; [|exact Hni]. unfold sliced in T. cbn [fst snd] in T. rewrite Z2Nat.id in T by exact Hn. injection T as T1 T2.
  unfold axis_values. destruct (Nat.eqb_spec d 0); [lia|].
  assert (Z.of_nat i0 = (let a := match a with Some a => a | None => 0 end in if a <? 0 then a + n else a))%Z as Ei.
  { rewrite <- T1. unfold slice_bound. destruct a as [v|]; cbn [within] in Ha |- *; [|reflexivity]. cbv zeta. destruct (Z.ltb_spec v 0); lia. }
  assert (Z.of_nat ni = (let b := match b with Some b => b | None => n end in if b <? 0 then b + n else b) - Z.of_nat i0)%Z as En.
  { rewrite <- T2 in *. assert (slice_bound n 0 a = Z.of_nat i0) as E by (rewrite <- T1; pose proof (slice_bound_range n 0 a Hn ltac:(lia)); lia).
    rewrite E in *. assert (slice_bound n n b = let b := match b with Some b => b | None => n end in if b <? 0 then b + n else b)%Z as ->.
    { unfold slice_bound. destruct b as [v|]; cbn [within] in Hb |- *; cbv zeta; [destruct (Z.ltb_spec v 0); lia|]. destruct (Z.ltb_spec n 0); lia. }
    revert Hni. unfold slice_bound. destruct b as [v|]; cbn [within] in Hb |- *; cbv zeta; [destruct (Z.ltb_spec v 0); lia|]. destruct (Z.ltb_spec n 0); lia. }
  cbv zeta in Ei, En. cbv beta iota zeta. rewrite <- Ei. rewrite <- En.
  destruct (axis_core (o + Z.of_nat i0) (Z.of_nat ni) d Hd ltac:(lia)) as (l & E & L & P). exists l. split; [exact E|]. split; [rewrite Nat2Z.id in L; exact L|exact P].
Qed.
Lemma axis_zero o n roi : axis_values o n roi 0 = Err ZeroDivisionError.
Proof. unfold axis_values. destruct roi as [[a b]|]; reflexivity. Qed.
(* not a slice of the image: no clipping *)
Lemma axis_outside o n a b : (0 <= a <= n)%Z -> (n < b)%Z -> exists l, axis_values o n (Some (Some a, Some b)) 1 = Ok l /\
  takes (Z.to_nat n) (Some a, Some b) (Z.to_nat a) (Z.to_nat (n - a)) /\ List.length l = Z.to_nat (b - a).
Proof.
  intros Ha Hb. unfold axis_values. destruct (Z.ltb_spec a 0); [lia|]. destruct (Z.ltb_spec b 0); [lia|]. cbn [Nat.eqb].
  destruct (axis_core (o + a) (b - a) 1 ltac:(lia) ltac:(lia)) as (l & E & L & _). exists l. split; [exact E|]. split; [|rewrite L; apply Nat.div_1_r].
  apply sliced_takes. unfold sliced, slice_bound. cbn [fst snd]. rewrite Z2Nat.id by lia. destruct (Z.ltb_spec a 0); [lia|]. destruct (Z.ltb_spec b 0); [lia|]. f_equal; lia.
Qed.
Lemma axis_reversed o n a b d : 0 < d -> (0 <= b < a)%Z -> axis_values o n (Some (Some a, Some b)) d = Err ValueError.
Proof.
  intros Hd H. unfold axis_values. destruct (Z.ltb_spec a 0); [lia|]. destruct (Z.ltb_spec b 0); [lia|]. destruct (Nat.eqb_spec d 0); [lia|].
  unfold AxisModel.linspace. assert ((b - a) / Z.of_nat d < 0)%Z as N by (apply Z.div_lt_upper_bound; lia).
  apply Z.ltb_lt in N. rewrite N. reflexivity.
Qed.

(* ---- grouping of files ---- *)
Lemma roi_eqb_refl r : roi_eqb r r = true.
Proof.
  unfold roi_eqb. rewrite Nat.eqb_refl. cbn [andb]. induction r as [|x r IH]; [reflexivity|]. cbn [combine forallb fst snd]. rewrite Z.eqb_refl. exact IH.
Qed.
Lemma roi_eqb_eq a b : roi_eqb a b = true <-> a = b.
Proof.
  split; [|intros ->; apply roi_eqb_refl]. revert b. unfold roi_eqb. induction a as [|x a IH]; intros [|y b] H; try discriminate; [reflexivity|].
  apply andb_true_iff in H. destruct H as [L H]. cbn [combine forallb fst snd] in H. apply andb_true_iff in H. destruct H as [Hx H]. apply Z.eqb_eq in Hx. subst y.
  f_equal. apply IH. apply andb_true_iff. split; [exact L|exact H].
Qed.
Definition after (new : bool) (g : groups) (roi : list Z) (fs : list (file * option string)) (k : string) : option (list file) :=
  match lookup String.eqb k g with
  | Some l => Some (l ++ group k roi fs)
  | None => if new then match group k roi fs with [] => None | l => Some l end else None
  end.
Lemma group_cons k roi x fs : group k roi (x :: fs) = (if in_group k roi x then [fst x] else []) ++ group k roi fs.
Proof. unfold group. cbn [filter]. destruct (in_group k roi x); reflexivity. Qed.
Lemma add_files_known new roi : forall fs g st, NoDup (keys g) -> add_files new (Some roi, g) fs = Ok st ->
  exists g', st = (Some roi, g') /\ NoDup (keys g') /\ Forall (fun x => exists r, getroi (fst x) = Ok r) (labelled fs) /\
    forall k, lookup String.eqb k g' = after new g roi fs k.
Proof.
  induction fs as [|[f v] fs IH]; intros g st ND H.
  - cbn [add_files] in H. exists g. split; [inversion H; reflexivity|]. split; [exact ND|]. split; [constructor|]. intro k. unfold after, group. cbn [filter map].
    destruct (lookup String.eqb k g); [rewrite app_nil_r; reflexivity|]. destruct new; reflexivity.
  - cbn [add_files] in H. unfold add_file in H. cbv beta iota zeta in H.
    change (match v with Some k => Some k | None => f_stack f end) with (key_of (f, v)) in H.
    destruct (key_of (f, v)) as [k0|] eqn:K.
    + destruct (getroi f) as [r|e] eqn:R; [|discriminate]. cbn [bind] in H.
      assert (forall k, in_group k roi (f, v) = String.eqb k0 k && roi_eqb r roi) as IG by (intro k; unfold in_group; rewrite K; cbn [fst]; rewrite R; reflexivity).
      assert (exists g1, add_files new (Some roi, g1) fs = Ok st /\ NoDup (keys g1) /\ forall k, after new g1 roi fs k = after new g roi ((f, v) :: fs) k) as (g1 & H1 & N1 & A1).
      { destruct (roi_eqb r roi) eqn:Er.
        - destruct (lookup String.eqb k0 g) as [l|] eqn:L.
          + cbn [bind] in H. eexists. split; [exact H|]. split; [apply (NoDup_keys_assign _ str_decides), ND|]. intro k. unfold after. rewrite group_cons, IG, andb_true_r. cbn [fst].
            destruct (String.eqb_spec k0 k) as [<-|N].
            * rewrite (lookup_assign_same _ str_decides), L. rewrite <- app_assoc. reflexivity.
            * rewrite (lookup_assign_other _ str_decides) by congruence. reflexivity.
          + destruct new; cbn [bind] in H.
            * eexists. split; [exact H|]. split; [apply (NoDup_keys_assign _ str_decides), ND|]. intro k. unfold after. rewrite group_cons, IG, andb_true_r. cbn [fst].
              destruct (String.eqb_spec k0 k) as [<-|N]; [rewrite (lookup_assign_same _ str_decides), L; reflexivity|].
              rewrite (lookup_assign_other _ str_decides) by congruence. reflexivity.
            * exists g. split; [exact H|]. split; [exact ND|]. intro k. unfold after. rewrite group_cons, IG, andb_true_r. cbn [fst].
              destruct (String.eqb_spec k0 k) as [<-|N]; [rewrite L; reflexivity|reflexivity].
        - cbn [bind] in H. exists g. split; [exact H|]. split; [exact ND|]. intro k. unfold after. rewrite group_cons, IG, andb_false_r. reflexivity. }
      destruct (IH g1 st N1 H1) as (g' & E & N' & F & A). exists g'. split; [exact E|]. split; [exact N'|]. split.
      * unfold labelled. cbn [filter]. rewrite K. constructor; [exists r; exact R|exact F].
      * intro k. rewrite A. apply A1.
    + cbn [bind] in H. destruct (IH g st ND H) as (g' & E & N' & F & A). exists g'. split; [exact E|]. split; [exact N'|]. split.
      * unfold labelled. cbn [filter]. rewrite K. exact F.
      * intro k. rewrite A. unfold after. rewrite group_cons. unfold in_group. rewrite K. reflexivity.
Qed.
Lemma add_files_first new : forall fs g st, add_files new (None, g) fs = Ok st ->
  (labelled fs = [] /\ st = (None, g)) \/
  (exists x r, hd_error (labelled fs) = Some x /\ getroi (fst x) = Ok r /\ add_files new (Some r, g) fs = Ok st).
Proof.
  induction fs as [|[f v] fs IH]; intros g st H; [left; split; [reflexivity|cbn [add_files] in H; inversion H; reflexivity]|].
  cbn [add_files] in H. unfold add_file in H. cbv beta iota zeta in H.
  change (match v with Some k => Some k | None => f_stack f end) with (key_of (f, v)) in H. unfold labelled. cbn [filter].
  destruct (key_of (f, v)) as [k0|] eqn:K.
  - right. destruct (getroi f) as [r|e] eqn:R; [|discriminate]. exists (f, v), r. split; [reflexivity|]. split; [exact R|].
    cbn [add_files]. unfold add_file. change (match v with Some k => Some k | None => f_stack f end) with (key_of (f, v)). rewrite K, R. cbn [bind] in H |- *.
    cbv beta iota zeta. rewrite roi_eqb_refl. exact H.
  - cbn [bind] in H. destruct (IH g st H) as [[L E]|(x & r & L & R & E)]; [left; split; assumption|]. right. exists x, r. split; [exact L|]. split; [exact R|].
    cbn [add_files]. unfold add_file. change (match v with Some k => Some k | None => f_stack f end) with (key_of (f, v)). rewrite K. cbn [bind]. exact E.
Qed.

Lemma lookup_map {A B} (h : A -> B) k (d : list (string * A)) : lookup String.eqb k (map (fun x => (fst x, h (snd x))) d) = option_map h (lookup String.eqb k d).
Proof.
  induction d as [|[k' a] d IH]; [reflexivity|]. cbn [map lookup fst snd]. destruct (String.eqb k k'); [reflexivity|exact IH].
Qed.
Lemma keys_map {A B} (h : A -> B) (d : list (string * A)) : keys (map (fun x => (fst x, h (snd x))) d) = keys d.
Proof. unfold keys. rewrite map_map. apply map_ext. reflexivity. Qed.
Lemma name_leb_total x y : name_leb x y = true \/ name_leb y x = true.
Proof. unfold name_leb. destruct (String.leb (f_name x) (f_name y)) eqn:E; [left; reflexivity|right; apply ShelllineProofs.leb_flip, E]. Qed.
Lemma name_leb_trans x y z : name_leb x y = true -> name_leb y z = true -> name_leb x z = true.
Proof. unfold name_leb. apply ShelllineProofs.leb_trans. Qed.
Lemma split_ok l : Permutation (fst (split_flats l) ++ snd (split_flats l)) l /\
  StronglySorted (fun a b => String.leb (f_name a) (f_name b) = true) (fst (split_flats l) ++ snd (split_flats l)) /\
  List.length (fst (split_flats l)) = (if List.length l =? 1 then 1 else List.length l / 2).
Proof.
  unfold split_flats. set (s := ListToolsModel.sorted name_leb l).
  assert (Permutation s l) as P by apply sorted_perm.
  assert (StronglySorted (fun a b => String.leb (f_name a) (f_name b) = true) s) as S by (apply (sorted_sorted name_leb name_leb_total name_leb_trans)).
  rewrite <- (Permutation_length P). destruct (Nat.eqb_spec (List.length s) 1) as [E|N]; cbn [fst snd].
  - rewrite app_nil_r. repeat split; assumption.
  - rewrite firstn_skipn. split; [exact P|]. split; [exact S|]. apply firstn_length_le. pose proof (Nat.div_le_upper_bound (List.length s) 2 (List.length s)). lia.
Qed.

Section Flats.
Variable number : string -> Qc.
Lemma library_ok p ds fs d : dataflatlibrary number p ds fs = Ok d ->
  exists x roi, hd_error (labelled (with_values (p_stacks p) ds)) = Some x /\ getroi (fst x) = Ok roi /\ axesvalues p roi = Ok (l_axes d) /\
  let D k := group k roi (with_values (p_stacks p) ds) in
  let F k := group k roi (with_values (p_flatstacks p) fs) in
  (forall k, lookup String.eqb k (l_data d) = nonempty (D k)) /\
  (p_beforeafter p = false -> l_flat2 d = None /\ forall k, lookup String.eqb k (l_flat1 d) = match D k with [] => None | _ => Some (F k) end) /\
  (p_beforeafter p = true -> exists g, l_flat2 d = Some g /\ forall k, match D k with
     | [] => lookup String.eqb k (l_flat1 d) = None /\ lookup String.eqb k g = None
     | _ => exists a b, lookup String.eqb k (l_flat1 d) = Some a /\ lookup String.eqb k g = Some b /\ Permutation (a ++ b) (F k) /\
         StronglySorted (fun u v => String.leb (f_name u) (f_name v) = true) (a ++ b) /\
         List.length a = (if List.length (F k) =? 1 then 1 else List.length (F k) / 2) end) /\
  NoDup (l_order d) /\ StronglySorted (fun a b => (number a <= number b)%Qc) (l_order d) /\ (forall k, In k (l_order d) <-> D k <> []).
Proof.
  unfold dataflatlibrary. change (combine ds (stackvalues (p_stacks p) ds)) with (with_values (p_stacks p) ds).
  change (combine fs (stackvalues (p_flatstacks p) fs)) with (with_values (p_flatstacks p) fs).
  set (DD := with_values (p_stacks p) ds). set (FF := with_values (p_flatstacks p) fs). intro H.
  destruct (add_files true (None, []) DD) as [st|e] eqn:E1; [|discriminate]. cbn [bind] in H.
  destruct (add_files_first _ _ _ _ E1) as [[L ->]|(x & roi & Hx & Rx & E1')].
  { cbn [fst snd map] in H. destruct (add_files false (None, []) FF) as [st2|]; [|discriminate]. cbn [bind] in H. destruct (fst st2); discriminate. }
  assert (NoDup (keys (@nil (string * list file)))) as N0 by constructor.
  destruct (add_files_known _ _ _ _ _ N0 E1') as (g & -> & Ng & _ & Lg). cbn [fst snd] in H.
  destruct (add_files false (Some roi, map (fun x => (fst x, [])) g) FF) as [st2|e] eqn:E2; [|discriminate]. cbn [bind] in H.
  assert (NoDup (keys (map (fun x : string * list file => (fst x, @nil file)) g))) as Nf by (rewrite (keys_map (fun _ => [])); exact Ng).
  destruct (add_files_known _ _ _ _ _ Nf E2) as (fl & -> & Nfl & _ & Lfl). cbn [fst snd] in H.
  destruct g as [|y g'] eqn:Eg; [discriminate|]. rewrite <- Eg in *. destruct (axesvalues p roi) as [axes|] eqn:Ea; [|discriminate]. cbn [bind] in H.
  assert (forall k, lookup String.eqb k g = nonempty (group k roi DD)) as LD by (intro k; rewrite Lg; unfold after, nonempty; cbn [lookup]; destruct (group k roi DD); reflexivity).
  assert (forall k, lookup String.eqb k fl = match group k roi DD with [] => None | _ => Some (group k roi FF) end) as LF.
  { intro k. rewrite Lfl. unfold after. rewrite (lookup_map (fun _ => [])), LD. unfold nonempty. destruct (group k roi DD); reflexivity. }
  exists x, roi. split; [exact Hx|]. split; [exact Rx|]. inversion H as [Hd]; clear H. cbn [l_axes l_data l_flat1 l_flat2 l_order]. split; [exact Ea|]. cbv zeta.
  split; [exact LD|]. split; [|split; [|split; [|split]]].
  - intros ->. split; [reflexivity|]. exact LF.
  - intros ->. eexists. split; [reflexivity|]. intro k. rewrite !map_map. cbn [fst snd].
    rewrite (lookup_map (fun l => fst (split_flats l))), (lookup_map (fun l => snd (split_flats l))), LF.
    destruct (group k roi DD) as [|z zs]; [split; reflexivity|]. cbn [option_map]. do 2 eexists. split; [reflexivity|]. split; [reflexivity|]. apply split_ok.
  - eapply Permutation_NoDup; [apply Permutation_sym, sorted_perm|exact Ng].
  - assert (forall a b, Qc_leb (number a) (number b) = true \/ Qc_leb (number b) (number a) = true) as T by (intros; apply Qc_leb_total).
    assert (forall a b c, Qc_leb (number a) (number b) = true -> Qc_leb (number b) (number c) = true -> Qc_leb (number a) (number c) = true) as Tr by (intros a b c; apply Qc_leb_trans).
    pose proof (sorted_sorted (fun a b => Qc_leb (number a) (number b)) T Tr (map fst g)) as S. clear - S.
    induction S as [|a l S IH F]; constructor; [exact IH|]. eapply Forall_impl; [|exact F]. intros b Hb. cbv beta in Hb. apply Qc_leb_le, Hb.
  - intro k. rewrite (Permutation_in' eq_refl (sorted_perm _ (map fst g))).
    transitivity (lookup String.eqb k g <> None).
    + split; [intros Hk Hn; apply (lookup_None _ str_decides) in Hn; apply Hn, Hk|]. intro Hn. destruct (in_dec String.string_dec k (map fst g)) as [Hi|Hi]; [exact Hi|].
      exfalso. apply Hn. apply (lookup_None _ str_decides). exact Hi.
    + rewrite LD. unfold nonempty. destruct (group k roi DD); split; congruence.
Qed.
Lemma no_data p ds fs d : labelled (with_values (p_stacks p) ds) = [] -> dataflatlibrary number p ds fs <> Ok d.
Proof. intros L H. destruct (library_ok p ds fs d H) as (x & roi & Hx & _). rewrite L in Hx. discriminate. Qed.
Lemma add_files_none new g : forall fs st, labelled fs = [] -> add_files new (st, g) fs = Ok (st, g).
Proof.
  induction fs as [|[f v] fs IH]; intros st L; [reflexivity|]. unfold labelled in L. cbn [filter] in L.
  destruct (key_of (f, v)) as [k|] eqn:K; [discriminate|]. cbn [add_files]. unfold add_file.
  change (match v with Some k => Some k | None => f_stack f end) with (key_of (f, v)). rewrite K. cbn [bind]. apply IH, L.
Qed.
Lemma no_data_error p ds : labelled (with_values (p_stacks p) ds) = [] -> dataflatlibrary number p ds [] = Err OSError.
Proof.
  intro L. unfold dataflatlibrary. change (combine ds (stackvalues (p_stacks p) ds)) with (with_values (p_stacks p) ds).
  rewrite add_files_none by exact L. reflexivity.
Qed.

(* ---- slices ---- *)
Lemma rate_ok p r c d l fs : dark_holds p r c d l -> measurable number p r c d fs ->
  exists out, normalized number p l (map fst fs) = Ok (Some out) /\ rows out = r /\ cols out = c /\ forall i j, px out i j = rate number p d fs i j.
Proof.
  intros H (P & S & F & N & D). destruct (normalized_ok number p r c d l fs H P S F N D) as (out & E & R & C & Px). exists out. repeat (split; [assumption|]).
  intros i j. unfold rate. rewrite <- Px. field. exact D.
Qed.
Lemma slice_normalized p r c dk l d k a b b2 : prepared p dk -> shaped r c dk -> darklibrary p [] (map fst dk) = Ok l ->
  lookup String.eqb k (l_data d) = Some (map fst a) -> lookup String.eqb k (l_flat1 d) = Some (map fst b) ->
  match b2 with None => l_flat2 d = None | Some b2 => exists g, l_flat2 d = Some g /\ lookup String.eqb k g = Some (map fst b2) /\ measurable number p r c dk b2 end ->
  measurable number p r c dk a -> measurable number p r c dk b -> p_normalize p = true ->
  exists out, one_slice number p l d k = Ok (Some out) /\ o_rows out = r /\ o_cols out = c /\
    forall i j, o_px out i j = (let f := flat_of number p dk b b2 i j in if Qc_eqb f 0 then None else Some (rate number p dk a i j / f)%Qc).
Proof.
  intros Pd Sd El La Lb Lb2 Ma Mb Nz. destruct (dark_library p r c dk Pd Sd) as (l' & E' & H). assert (l' = l) as -> by congruence.
  destruct (rate_ok p r c dk l a H Ma) as (ia & Ea & Ra & Ca & Pa). destruct (rate_ok p r c dk l b H Mb) as (ib & Eb & Rb & Cb & Pb).
  unfold one_slice, get. rewrite La. cbn [bind]. rewrite Ea. cbn [bind]. rewrite Nz, orb_true_r, Lb. cbn [bind]. rewrite Eb. cbn [bind].
  destruct b2 as [b2|].
  - destruct Lb2 as (g & -> & L2 & M2). rewrite L2. cbn [bind]. destruct (rate_ok p r c dk l b2 H M2) as (ic & Ec & Rc & Cc & Pc). rewrite Ec. cbn [bind].
    unfold add. rewrite Rb, Cb, Rc, Cc, !Nat.eqb_refl. cbn [andb bind rows cols]. rewrite Ra, Ca, !Nat.eqb_refl. cbn [andb].
    eexists. split; [reflexivity|]. split; [reflexivity|]. split; [reflexivity|]. intros i j. cbn [o_px px flat_of]. rewrite Pa, Pb, Pc. reflexivity.
  - rewrite Lb2. cbn [bind]. rewrite Ra, Ca, Rb, Cb, !Nat.eqb_refl. cbn [andb].
    eexists. split; [reflexivity|]. split; [reflexivity|]. split; [reflexivity|]. intros i j. cbn [o_px flat_of]. rewrite Pa, Pb. reflexivity.
Qed.
Lemma slice_plain p r c dk l d k a : prepared p dk -> shaped r c dk -> darklibrary p [] (map fst dk) = Ok l ->
  lookup String.eqb k (l_data d) = Some (map fst a) -> measurable number p r c dk a -> p_normalize p = false -> p_keepflat p = false ->
  exists out, one_slice number p l d k = Ok (Some out) /\ o_rows out = r /\ o_cols out = c /\ forall i j, o_px out i j = Some (rate number p dk a i j).
Proof.
  intros Pd Sd El La Ma Nz Kf. destruct (dark_library p r c dk Pd Sd) as (l' & E' & H). assert (l' = l) as -> by congruence.
  destruct (rate_ok p r c dk l a H Ma) as (ia & Ea & Ra & Ca & Pa).
  unfold one_slice, get. rewrite La. cbn [bind]. rewrite Ea. cbn [bind]. rewrite Nz, Kf. cbn [orb option_map]. eexists. split; [reflexivity|].
  split; [exact Ra|]. split; [exact Ca|]. intros i j. cbn [plain o_px]. rewrite Pa. reflexivity.
Qed.
(* no flat images *)
Lemma slice_noflat p l d k a img : lookup String.eqb k (l_data d) = Some a -> normalized number p l a = Ok img ->
  p_normalize p = true \/ p_keepflat p = true ->
  (lookup String.eqb k (l_flat1 d) = Some [] -> one_slice number p l d k = Err TypeError) /\
  (forall f f' g, lookup String.eqb k (l_flat1 d) = Some f -> normalized number p l f = Ok f' -> l_flat2 d = Some g -> lookup String.eqb k g = Some [] -> one_slice number p l d k = Err TypeError).
Proof.
  intros La Ea N. assert (p_keepflat p || p_normalize p = true) as B by (destruct N as [-> | ->]; [apply orb_true_r|reflexivity]).
  unfold one_slice, get. rewrite La. cbn [bind]. rewrite Ea. cbn [bind]. rewrite B. split.
  - intros ->. reflexivity.
  - intros f f' g -> Ef -> ->. cbn [bind]. rewrite Ef. reflexivity.
Qed.
Lemma no_image p l : normalized number p l [] = Err TypeError.
Proof. reflexivity. Qed.
Lemma mapM_In {A B} (f : A -> result B) l bs a : mapM f l = Ok bs -> In a l -> exists b, f a = Ok b.
Proof.
  revert bs. induction l as [|x l IH]; intros bs H Hin; [destruct Hin|]. cbn [mapM] in H. destruct (f x) as [b|] eqn:E; [|discriminate]. cbn [bind] in H.
  destruct (mapM f l) as [bs'|] eqn:E'; [|discriminate]. destruct Hin as [<-|Hin]; [exists b; exact E|]. apply (IH bs' eq_refl Hin).
Qed.
Lemma one_needs_flat p l d k out : one_slice number p l d k = Ok out -> p_normalize p = true \/ p_keepflat p = true ->
  lookup String.eqb k (l_flat1 d) <> Some [] /\ (forall g, l_flat2 d = Some g -> lookup String.eqb k g <> Some []).
Proof.
  intros H N. assert (p_keepflat p || p_normalize p = true) as B by (destruct N as [-> | ->]; [apply orb_true_r|reflexivity]).
  unfold one_slice, get in H. destruct (lookup String.eqb k (l_data d)) as [a|]; [|discriminate]. cbn [bind] in H.
  destruct (normalized number p l a) as [ia|]; [|discriminate]. cbn [bind] in H. rewrite B in H. split.
  - intro E. rewrite E in H. discriminate.
  - intros g Eg E. rewrite Eg in H. destruct (lookup String.eqb k (l_flat1 d)) as [f|]; [|discriminate]. cbn [bind] in H. destruct (normalized number p l f); [|discriminate]. cbn [bind] in H.
    rewrite E in H. discriminate.
Qed.
(* the result needs flat images for every key with data: two when before and after are used *)
Lemma needs_flats p dks ds fs out x roi : fullfield number p dks ds fs = Ok out -> p_normalize p = true \/ p_keepflat p = true ->
  hd_error (labelled (with_values (p_stacks p) ds)) = Some x -> getroi (fst x) = Ok roi ->
  forall k, group k roi (with_values (p_stacks p) ds) <> [] ->
    (if p_beforeafter p then 2 else 1) <= List.length (group k roi (with_values (p_flatstacks p) fs)).
Proof.
  intros H N Hx Hr k Hk. unfold fullfield in H. destruct (darklibrary p [] dks) as [l|]; [|discriminate]. cbn [bind] in H.
  destruct (dataflatlibrary number p ds fs) as [d|] eqn:Ed; [|discriminate]. cbn [bind] in H.
  destruct (library_ok p ds fs d Ed) as (x' & roi' & Hx' & Hr' & _ & LD & L1 & L2 & _ & _ & Io). assert (x' = x) as -> by congruence. assert (roi' = roi) as -> by congruence.
  destruct (mapM_In _ _ _ k H (proj2 (Io k) Hk)) as (o & Ho). destruct (one_needs_flat p l d k o Ho N) as [F1 F2].
  destruct (p_beforeafter p).
  - destruct (L2 eq_refl) as (g & Eg & Lg). specialize (Lg k). destruct (group k roi (with_values (p_stacks p) ds)) as [|z zs]; [contradiction|].
    destruct Lg as (a & b & La & Lb & P & _ & Len). specialize (F2 g Eg). rewrite Lb in F2. rewrite La in F1. rewrite <- (Permutation_length P), app_length in *.
    destruct a; [congruence|]. destruct b; [congruence|]. cbn [List.length]. lia.
  - destruct (L1 eq_refl) as [_ Lf]. specialize (Lf k). destruct (group k roi (with_values (p_stacks p) ds)) as [|z zs]; [contradiction|]. rewrite Lf in F1.
    destruct (group k roi (with_values (p_flatstacks p) fs)); [congruence|]. cbn [List.length]. lia.
Qed.
Lemma slices_in_order p dks ds fs out : fullfield number p dks ds fs = Ok out ->
  exists l d, darklibrary p [] dks = Ok l /\ dataflatlibrary number p ds fs = Ok d /\ Forall2 (fun k o => one_slice number p l d k = Ok o) (l_order d) out.
Proof.
  intro H. unfold fullfield in H. destruct (darklibrary p [] dks) as [l|]; [|discriminate]. cbn [bind] in H.
  destruct (dataflatlibrary number p ds fs) as [d|] eqn:Ed; [|discriminate]. cbn [bind] in H. exists l, d. split; [reflexivity|]. split; [reflexivity|].
  apply mapM_Ok_Forall2, H.
Qed.
End Flats.

Lemma intensity' number p r c d fs : prepared p d -> shaped r c d -> measurable number p r c d fs ->
  exists l out, darklibrary p [] (map fst d) = Ok l /\ normalized number p l (map fst fs) = Ok (Some out) /\ rows out = r /\ cols out = c /\
    forall i j, (px out i j * duration number p fs)%Qc = SumOf (fun x => px (snd x) i j - frames x * dark_rate number p d (time_of p x) i j)%Qc fs.
Proof. intros Pd Sd (P & S & F & N & D). apply intensity; assumption. Qed.
Lemma recovered' number p r c d fs (I : nat -> nat -> Qc) : prepared p d -> shaped r c d -> measurable number p r c d fs ->
  (forall x i j, In x fs -> px (snd x) i j = (frames x * (number (time_of p x) * I i j + dark_rate number p d (time_of p x) i j))%Qc) ->
  exists l out, darklibrary p [] (map fst d) = Ok l /\ normalized number p l (map fst fs) = Ok (Some out) /\ rows out = r /\ cols out = c /\
    forall i j, px out i j = I i j.
Proof. intros Pd Sd (P & S & F & N & D) M. apply (recovered number p r c d fs I); assumption. Qed.
Lemma not_exposed number p r c d fs : prepared p d -> shaped r c d -> prepared p fs -> shaped r c fs ->
  Forall (fun x => has_frames p d (time_of p x)) fs -> fs <> [] -> duration number p fs = 0%Qc ->
  exists l, darklibrary p [] (map fst d) = Ok l /\ normalized number p l (map fst fs) = Ok None.
Proof.
  intros Pd Sd Pf Sf Ff N D. destruct (dark_library p r c d Pd Sd) as (l & E0 & H). exists l. split; [exact E0|].
  destruct fs as [|[f img] fs]; [contradiction|].
  inversion Pf as [|? ? P1 Pf']; subst. inversion Sf as [|? ? [R1 C1] Sf']; subst. inversion Ff as [|? ? F1 Ff']; subst. cbn [fst snd] in *.
  unfold normalized. cbn [map images fst]. rewrite P1. cbn [bind].
  destruct (subtract_ok number p (rows img) (cols img) d l (frametime p f) (nframes f) img H eq_refl eq_refl F1) as (s & -> & Rs & Cs & Ps). cbn [bind accumulate].
  destruct (images_ok number p (rows img) (cols img) d l H fs s (number (frametime p f) * nframes f)%Qc Pf' Sf' Ff' Rs Cs) as (out & E & Ro & Co & Po).
  rewrite E. cbn [bind].
  assert (number (frametime p f) * nframes f + duration number p fs = duration number p ((f, img) :: fs))%Qc as -> by reflexivity.
  apply Qc_eqb_spec in D. rewrite D. reflexivity.
Qed.
Lemma axes_ok p y0 x0 ny nx row col : axesvalues p [y0; x0; ny; nx] = Ok (row, col) <->
  axis_values y0 ny (option_map fst (p_roi p)) (fst (p_rebin p)) = Ok row /\ axis_values x0 nx (option_map snd (p_roi p)) (snd (p_rebin p)) = Ok col.
Proof.
  unfold axesvalues. destruct (axis_values x0 nx _ _) as [c|]; cbn [bind]; [|split; [discriminate|intros [_ H]; discriminate]].
  destruct (axis_values y0 ny _ _) as [r|]; cbn [bind]; [|split; [discriminate|intros [H _]; discriminate]].
  split; [intro H; inversion H; split; reflexivity|intros [H1 H2]; inversion H1; inversion H2; reflexivity].
Qed.
Lemma getroi_none f : f_roi f = None -> getroi f = Ok [0%Z; 0%Z; Z.of_nat (rows (f_data f)); Z.of_nat (cols (f_data f))].
Proof. intro E. unfold getroi. rewrite E. reflexivity. Qed.
Lemma getroi_short f l : f_roi f = Some l -> List.length l < 4 -> getroi f = Err IndexError.
Proof. intros E H. unfold getroi. rewrite E. destruct l as [|? [|? [|? [|? l]]]]; cbn [List.length] in H; try lia; reflexivity. Qed.
