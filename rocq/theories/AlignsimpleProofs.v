From Verif Require Import Base BaseProofs QcTac CenterModel CenterSpec CenterProofs AlignsimpleModel AlignsimpleSpec.
From Coq Require Import Lia.
Local Open Scope Qc_scope.

Lemma flat_index d i j (v : datum) : (i < ny d)%nat -> (j < nx d)%nat -> nth_error (flat d) (i * nx d + j) = Some v <-> pix d i j = v.
Proof.
  intros Hi Hj. rewrite flat_at. rewrite Nat.div_add_l, (Nat.div_small j), Nat.add_0_r by lia.
  rewrite (Nat.add_comm (i * nx d)), Nat.mod_add, (Nat.mod_small j) by lia. split; [intros [_ H]; exact H|]. intros H. split; [nia|exact H].
Qed.
Lemma index_split d k : (k < ny d * nx d)%nat -> exists i j, k = (i * nx d + j)%nat /\ (i < ny d)%nat /\ (j < nx d)%nat.
Proof.
  intros H. assert (N : nx d <> 0%nat) by nia. exists (k / nx d)%nat, (k mod nx d)%nat. split; [|split].
  - rewrite (Nat.div_mod k (nx d)) at 1 by exact N. lia.
  - apply Nat.div_lt_upper_bound; nia.
  - now apply Nat.mod_upper_bound.
Qed.
Lemma flat_some d k v : nth_error (flat d) k = Some (Some v) -> exists i j, k = (i * nx d + j)%nat /\ (i < ny d)%nat /\ (j < nx d)%nat /\ pix d i j = Some v.
Proof.
  intros H. assert (K : (k < ny d * nx d)%nat) by (rewrite <- flat_length; apply nth_error_Some; congruence).
  destruct (index_split d k K) as (i & j & -> & Hi & Hj). exists i, j. apply flat_index in H; auto.
Qed.
Lemma earlier_index w i j y x : (j < w)%nat -> (x < w)%nat -> (i * w + j < y * w + x)%nat <-> earlier i j y x.
Proof. intros Hj Hx. unfold earlier. split; [|intros [H|[-> H]]; nia]. intros H. assert (i < y \/ i = y \/ y < i)%nat as [C|[C|C]] by lia; [now left|right; subst; split; lia|nia]. Qed.

(* the extremes of an image *)
Definition extreme (better : Qc -> Qc -> Prop) (strictly : Qc -> Qc -> Prop) (d : image) (y x : nat) : Prop :=
  exists m, (y < ny d)%nat /\ (x < nx d)%nat /\ pix d y x = Some m /\
    (forall i j v, (i < ny d)%nat -> (j < nx d)%nat -> pix d i j = Some v -> better v m) /\
    (forall i j v, (i < ny d)%nat -> (j < nx d)%nat -> pix d i j = Some v -> earlier i j y x -> strictly v m).
Definition greatest_at := extreme Qcle Qclt.
Definition least_at := extreme (fun v m => m <= v) (fun v m => m < v).
Lemma fmax_at d y x : greatest_at d y x -> fmax1 (flat d) = Ok (y * nx d + x)%nat.
Proof.
  intros (m & Hy & Hx & Em & Hle & Hlt). apply (proj1 (fmax_spec (flat d))). exists m. split; [now apply flat_index|]. split.
  - intros k v H. apply flat_some in H as (i & j & -> & Hi & Hj & E). eauto.
  - intros k v K H. apply flat_some in H as (i & j & -> & Hi & Hj & E). apply earlier_index in K; [|assumption|assumption]. eauto.
Qed.
Lemma fmin_at d y x : least_at d y x -> fmin1 (flat d) = Ok (y * nx d + x)%nat.
Proof.
  intros (m & Hy & Hx & Em & Hle & Hlt). apply (proj2 (proj2 (proj2 (fmax_spec (flat d))))). exists m. split; [now apply flat_index|]. split.
  - intros k v H. apply flat_some in H as (i & j & -> & Hi & Hj & E). eauto.
  - intros k v K H. apply flat_some in H as (i & j & -> & Hi & Hj & E). apply earlier_index in K; [|assumption|assumption]. eauto.
Qed.
Lemma split_index w y x : (x < w)%nat -> ((y * w + x) / w = y)%nat /\ ((y * w + x) mod w = x)%nat.
Proof.
  intros H. rewrite Nat.div_add_l, Nat.div_small, Nat.add_0_r by lia. split; [reflexivity|].
  rewrite Nat.add_comm, Nat.mod_add, Nat.mod_small by lia. reflexivity.
Qed.

(* missing pixels *)
Definition numbers_of (cval : fill) (d d' : image) : Prop :=
  ny d' = ny d /\ nx d' = nx d /\ forall i j v, (i < ny d)%nat -> (j < nx d)%nat -> pix d' i j = Some v <-> holds cval d i j v.
Lemma existsb_flat (f : datum -> bool) d : existsb f (flat d) = true <-> exists i j, (i < ny d)%nat /\ (j < nx d)%nat /\ f (pix d i j) = true.
Proof.
  rewrite existsb_exists. split.
  - intros (v & I & F). apply in_flat in I as (i & j & Hi & Hj & <-). eauto.
  - intros (i & j & Hi & Hj & F). exists (pix d i j). split; [apply in_flat; eauto|exact F].
Qed.
Lemma handle_nan cval p : writable cval p -> exists d', handle_missing cval p ByNan = Ok d' /\ numbers_of cval (img p) d'.
Proof.
  intros W. assert (Same : (forall i j v, (i < ny (img p))%nat -> (j < nx (img p))%nat -> pix (img p) i j = Some v -> forall q, cval = Number q -> q <> 0 -> v <> q) -> numbers_of cval (img p) (img p)).
  { intros H. split; [reflexivity|]. split; [reflexivity|]. intros i j v Hi Hj. unfold holds. split; [|tauto]. intros E. repeat split; eauto. }
  unfold handle_missing. destruct cval as [| |q].
  - exists (img p). split; [reflexivity|]. apply Same. discriminate.
  - exists (img p). split; [|apply Same; discriminate]. assert (existsb (is_missing OtherNan) (flat (img p)) = false) as ->; [|reflexivity].
    apply not_true_iff_false. rewrite existsb_flat. intros (i & j & _ & _ & F). destruct (pix (img p) i j); discriminate.
  - destruct (Qc_eqb q 0) eqn:Z.
    + exists (img p). split; [reflexivity|]. apply Same. apply Qc_eqb_spec in Z. intros. congruence.
    + assert (NZ : q <> 0) by now apply Qc_eqb_false.
      destruct (existsb (is_missing (Number q)) (flat (img p))) eqn:X.
      * apply existsb_flat in X as (i0 & j0 & Hi0 & Hj0 & F0). cbn in F0. destruct (pix (img p) i0 j0) as [v0|] eqn:E0; [|discriminate]. apply Qc_eqb_spec in F0. subst v0.
        destruct W as [W|W]; [|exfalso; exact (W q i0 j0 eq_refl NZ Hi0 Hj0 E0)]. rewrite W. eexists. split; [reflexivity|]. split; [reflexivity|]. split; [reflexivity|].
        intros i j v Hi Hj. unfold holds. cbn [pix]. unfold is_missing. destruct (pix (img p) i j) as [u|] eqn:E.
        -- destruct (Qc_eqb u q) eqn:Q.
           ++ apply Qc_eqb_spec in Q. subst u. cbn [replaced]. split; [discriminate|]. intros (_ & _ & H & N). exfalso. apply (N q eq_refl NZ). congruence.
           ++ split; [|tauto]. intros H. repeat split; try assumption. intros q' [= <-] _ ->. assert (u = q) by congruence. subst u.
              assert (Qc_eqb q q = true) by now apply Qc_eqb_spec. congruence.
        -- split; [discriminate|tauto].
      * exists (img p). split; [reflexivity|]. apply Same. intros i j v Hi Hj E q' [= <-] _ ->. apply not_true_iff_false in X. apply X. apply existsb_flat.
        exists i, j. repeat split; try assumption. cbn. rewrite E. now apply Qc_eqb_spec.
Qed.
Lemma peak_greatest cval d d' y x m : numbers_of cval d d' -> peak cval d y x m -> greatest_at d' y x.
Proof.
  intros (E1 & E2 & H) (P1 & P2 & P3). pose proof P1 as (Hy & Hx & _). exists m. rewrite E1, E2. split; [exact Hy|]. split; [exact Hx|]. split; [now apply H|]. split.
  - intros i j v Hi Hj E. apply (P2 i j). now apply H.
  - intros i j v Hi Hj E. apply (P3 i j). now apply H.
Qed.
Lemma valley_least cval d d' y x m : numbers_of cval d d' -> valley cval d y x m -> least_at d' y x.
Proof.
  intros (E1 & E2 & H) (P1 & P2 & P3). pose proof P1 as (Hy & Hx & _). exists m. rewrite E1, E2. split; [exact Hy|]. split; [exact Hx|]. split; [now apply H|]. split.
  - intros i j v Hi Hj E. apply (P2 i j). now apply H.
  - intros i j v Hi Hj E. apply (P3 i j). now apply H.
Qed.
Lemma of_nat_0 : of_nat 0 = 0. Proof. reflexivity. Qed.
Section S.
Variable fit1 : list datum -> datum.
Variable fit2 : image -> datum * datum.
Variable cval : fill.
Lemma oneD_cases d : (0 < ny d)%nat -> (0 < nx d)%nat -> oneD d = true -> ny d = 1%nat \/ nx d = 1%nat.
Proof. intros Hy Hx H. unfold oneD in H. apply orb_prop in H as [H|H]; apply Nat.eqb_eq in H; [right|left]; nia. Qed.
Lemma getxy_index d (k : nat) (y x : nat) : (y < ny d)%nat -> (x < nx d)%nat -> k = (y * nx d + x)%nat -> oneD d = true ->
  (if (ny d =? 1)%nat then (number k, Some 0) else (Some 0, number k)) = (number x, number y).
Proof.
  intros Hy Hx -> H. apply oneD_cases in H; [|lia|lia]. destruct (Nat.eqb_spec (ny d) 1) as [E|E].
  - assert (y = 0%nat) by lia. subst y. reflexivity.
  - destruct H as [H|H]; [lia|]. assert (x = 0%nat) by lia. subst x. rewrite H, Nat.mul_1_r, Nat.add_0_r. reflexivity.
Qed.
Lemma getxy_max p y x m : writable cval p -> peak cval (img p) y x m -> getxy fit1 fit2 cval Max p = Ok (number x, number y).
Proof.
  intros W P. destruct (handle_nan cval p W) as (d & E & N). unfold getxy. rewrite E. cbn [bind].
  assert (G := peak_greatest _ _ _ _ _ _ N P). pose proof G as (_ & Hy & Hx & _). unfold locate1, locate2, fmax2. rewrite (fmax_at d y x G). cbn [bind].
  destruct (oneD d) eqn:D; [apply (f_equal Ok); now apply (getxy_index d _ y x)|]. destruct (split_index (nx d) y x Hx) as [-> ->]. reflexivity.
Qed.
Lemma getxy_min p y x m : writable cval p -> valley cval (img p) y x m -> getxy fit1 fit2 cval Min p = Ok (number x, number y).
Proof.
  intros W P. destruct (handle_nan cval p W) as (d & E & N). unfold getxy. rewrite E. cbn [bind].
  assert (G := valley_least _ _ _ _ _ _ N P). pose proof G as (_ & Hy & Hx & _). unfold locate1, locate2, fmin2. rewrite (fmin_at d y x G). cbn [bind].
  destruct (oneD d) eqn:D; [apply (f_equal Ok); now apply (getxy_index d _ y x)|]. destruct (split_index (nx d) y x Hx) as [-> ->]. reflexivity.
Qed.
Lemma minus_number a b : minus (number a) (number b) = Some (Qc_of_Z (Z.of_nat a - Z.of_nat b)).
Proof. cbn. apply (f_equal Some). unfold of_nat. unfold Z.sub. rewrite Qc_of_Z_plus, Qc_of_Z_opp. ring. Qed.
Lemma kernel_marker k st p p' x y x' y' : getxy fit1 fit2 cval k p = Ok (number x, number y) -> getxy fit1 fit2 cval k p' = Ok (number x', number y') ->
  exists st1 st2, set_reference fit1 fit2 cval k st p false = Ok st1 /\
    execute_alignkernel fit1 fit2 cval k Translation st1 p' =
      (st2, Ok (Some (Qc_of_Z (Z.of_nat x' - Z.of_nat x)), Some (Qc_of_Z (Z.of_nat y' - Z.of_nat y)))).
Proof.
  intros E E'. unfold set_reference, execute_alignkernel. rewrite E, E'. do 2 eexists. split; [reflexivity|]. cbn [fixedxy fst snd]. rewrite !minus_number. reflexivity.
Qed.
Lemma kernel_max st p p' y x m y' x' m' : writable cval p -> writable cval p' -> peak cval (img p) y x m -> peak cval (img p') y' x' m' ->
  exists st1 st2, set_reference fit1 fit2 cval Max st p false = Ok st1 /\
    execute_alignkernel fit1 fit2 cval Max Translation st1 p' =
      (st2, Ok (Some (Qc_of_Z (Z.of_nat x' - Z.of_nat x)), Some (Qc_of_Z (Z.of_nat y' - Z.of_nat y)))).
Proof. intros W W' P P'. apply kernel_marker; eapply getxy_max; eassumption. Qed.
Lemma kernel_min st p p' y x m y' x' m' : writable cval p -> writable cval p' -> valley cval (img p) y x m -> valley cval (img p') y' x' m' ->
  exists st1 st2, set_reference fit1 fit2 cval Min st p false = Ok st1 /\
    execute_alignkernel fit1 fit2 cval Min Translation st1 p' =
      (st2, Ok (Some (Qc_of_Z (Z.of_nat x' - Z.of_nat x)), Some (Qc_of_Z (Z.of_nat y' - Z.of_nat y)))).
Proof. intros W W' P P'. apply kernel_marker; eapply getxy_min; eassumption. Qed.

(* displacement *)
Lemma peak_moved d d' sy sx y x y' x' m : peak cval d y x m -> displaced d d' sy sx -> (y' < ny d')%nat -> (x' < nx d')%nat ->
  (Z.of_nat y' = Z.of_nat y + sy)%Z -> (Z.of_nat x' = Z.of_nat x + sx)%Z ->
  (forall i j v, holds cval d' i j v -> fresh d d' sy sx i j -> v < m) -> peak cval d' y' x' m.
Proof.
  intros ((Hy & Hx & E & N) & P2 & P3) D Hy' Hx' Ey Ex F.
  assert (Back : forall i j v, holds cval d' i j v -> fresh d d' sy sx i j \/ exists a b, holds cval d a b v /\ (Z.of_nat i = Z.of_nat a + sy)%Z /\ (Z.of_nat j = Z.of_nat b + sx)%Z).
  { intros i j v (Hi & Hj & Ev & Nv).
    destruct (Z_lt_dec (Z.of_nat i - sy) 0) as [A|A]; [left; intros (a & b & H1 & H2 & H3 & H4); lia|].
    destruct (Z_lt_dec (Z.of_nat i - sy) (Z.of_nat (ny d))) as [B|B]; [|left; intros (a & b & H1 & H2 & H3 & H4); lia].
    destruct (Z_lt_dec (Z.of_nat j - sx) 0) as [A'|A']; [left; intros (a & b & H1 & H2 & H3 & H4); lia|].
    destruct (Z_lt_dec (Z.of_nat j - sx) (Z.of_nat (nx d))) as [B'|B']; [|left; intros (a & b & H1 & H2 & H3 & H4); lia].
    right. exists (Z.to_nat (Z.of_nat i - sy)), (Z.to_nat (Z.of_nat j - sx)). split; [|lia]. split; [lia|]. split; [lia|]. split; [|exact Nv].
    rewrite <- Ev. symmetry. apply D; lia. }
  split; [|split].
  - split; [exact Hy'|]. split; [exact Hx'|]. split; [|exact N]. rewrite <- E. now apply D.
  - intros i j v H. destruct (Back i j v H) as [B|(a & b & H' & _)]; [apply Qclt_le_weak; eauto|eauto].
  - intros i j v H L. destruct (Back i j v H) as [B|(a & b & H' & Ea & Eb)]; [eauto|]. apply (P3 a b v H'). unfold earlier in *. lia.
Qed.
Lemma shifted_back missing d d' sy sx i j : displaced d d' sy sx -> (i < ny d)%nat -> (j < nx d)%nat ->
  (0 <= Z.of_nat i + sy < Z.of_nat (ny d'))%Z -> (0 <= Z.of_nat j + sx < Z.of_nat (nx d'))%Z ->
  pix (shifted missing d' sx sy) i j = pix d i j.
Proof.
  intros D Hi Hj By Bx. cbn [shifted pix]. rewrite !(proj2 (Z.leb_le _ _)), !(proj2 (Z.ltb_lt _ _)) by lia. cbn [andb].
  apply D; lia.
Qed.

(* centroids *)
Definition values (d : image) (h w : nat) (z : nat -> nat -> Qc) : Prop := ny d = h /\ nx d = w /\ forall i j, (i < h)%nat -> (j < w)%nat -> pix d i j = Some (z i j).
Lemma handle_zero p z : zeroed cval p z -> exists d, handle_missing cval p ByZero = Ok d /\ values d (ny (img p)) (nx (img p)) z.
Proof.
  intros H.
  assert (Same : (forall i j, (i < ny (img p))%nat -> (j < nx (img p))%nat -> is_missing cval (pix (img p) i j) = true -> cval = Number 0) -> values (img p) (ny (img p)) (nx (img p)) z).
  { intros N. split; [reflexivity|]. split; [reflexivity|]. intros i j Hi Hj. specialize (N i j Hi Hj). destruct (H i j Hi Hj) as [(E1 & E2 & E3)|[(q & E1 & E2 & E3)|(E1 & E2)]].
    - rewrite E1, E2 in N. discriminate (N eq_refl).
    - rewrite E1, E2 in N. cbn in N. assert (Qc_eqb q q = true) as X by now apply Qc_eqb_spec. rewrite X in N. specialize (N eq_refl). rewrite E2, E3. apply (f_equal Some). congruence.
    - exact E1. }
  assert (D : values {| ny := ny (img p); nx := nx (img p); pix := fun i j => if is_missing cval (pix (img p) i j) then replaced ByZero else pix (img p) i j |} (ny (img p)) (nx (img p)) z).
  { split; [reflexivity|]. split; [reflexivity|]. intros i j Hi Hj. cbn [pix]. destruct (H i j Hi Hj) as [(E1 & E2 & E3)|[(q & E1 & E2 & E3)|(E1 & E2)]].
    - rewrite E1, E2, E3. reflexivity.
    - rewrite E1, E2, E3. cbn [is_missing]. rewrite (proj2 (Qc_eqb_spec q q) eq_refl). reflexivity.
    - rewrite E1. destruct (is_missing cval (Some (z i j))) eqn:M; [|reflexivity]. destruct cval as [| |q]; try discriminate. cbn in M. apply Qc_eqb_spec in M. congruence. }
  unfold handle_missing. destruct cval as [| |q] eqn:C.
  - destruct (existsb (is_missing NpNan) (flat (img p))) eqn:X.
    + eexists. split; [reflexivity|exact D].
    + exists (img p). split; [reflexivity|]. apply Same. intros i j Hi Hj M. apply not_true_iff_false in X. exfalso. apply X. apply existsb_flat. eauto.
  - destruct (existsb (is_missing OtherNan) (flat (img p))) eqn:X.
    + eexists. split; [reflexivity|exact D].
    + exists (img p). split; [reflexivity|]. apply Same. intros i j Hi Hj M. apply not_true_iff_false in X. exfalso. apply X. apply existsb_flat. eauto.
  - destruct (Qc_eqb q 0) eqn:Z.
    + exists (img p). split; [reflexivity|]. apply Same. intros. apply Qc_eqb_spec in Z. now rewrite Z.
    + destruct (existsb (is_missing (Number q)) (flat (img p))) eqn:X.
      * eexists. split; [reflexivity|exact D].
      * exists (img p). split; [reflexivity|]. apply Same. intros i j Hi Hj M. apply not_true_iff_false in X. exfalso. apply X. apply existsb_flat. eauto.
Qed.
Lemma summit_max d h w z y x : values d h w z -> summit h w z y x -> greatest_at d y x.
Proof.
  intros (Eh & Ew & V) (Hy & Hx & S). exists (z y x). rewrite Eh, Ew. split; [exact Hy|]. split; [exact Hx|]. split; [now apply V|]. split.
  - intros i j v Hi Hj E. rewrite V in E by assumption. assert (z i j = v) as <- by congruence. now apply S.
  - intros i j v Hi Hj E L. rewrite V in E by assumption. assert (z i j = v) as <- by congruence. now apply S.
Qed.
Lemma fmax2_at d y x : greatest_at d y x -> fmax2 d = Ok (y, x).
Proof.
  intros G. pose proof G as (_ & Hy & Hx & _). unfold fmax2. rewrite (fmax_at d y x G). cbn [bind]. destruct (split_index (nx d) y x Hx) as [-> ->]. reflexivity.
Qed.
(* the square of half-width off around (y, x) is the same as around (y', x') *)
Definition same_square (d d' : image) (y x y' x' off : nat) : Prop :=
  forall a b, (a <= off + off)%nat -> (b <= off + off)%nat -> pix d (y - off + a) (x - off + b) = pix d' (y' - off + a) (x' - off + b).
Lemma same_low d d' y x y' x' off o t : same_square d d' y x y' x' off -> inside d y x off -> inside d' y' x' off -> (o <= off)%nat -> low_in d t y x o -> low_in d' t y' x' o.
Proof.
  intros H (A1 & A2 & A3 & A4) (B1 & B2 & B3 & B4) O (i & j & v & Hi & Hj & E & L).
  exists (y' + i - y)%nat, (x' + j - x)%nat, v. split; [lia|]. split; [lia|]. split; [|exact L].
  assert (Q := H (i - (y - off))%nat (j - (x - off))%nat ltac:(lia) ltac:(lia)).
  replace (y - off + (i - (y - off)))%nat with i in Q by lia. replace (x - off + (j - (x - off)))%nat with j in Q by lia.
  replace (y' - off + (i - (y - off)))%nat with (y' + i - y)%nat in Q by lia. replace (x' - off + (j - (x - off)))%nat with (x' + j - x)%nat in Q by lia. congruence.
Qed.
Lemma inside_le d y x off o : inside d y x off -> (o <= off)%nat -> inside d y x o.
Proof. intros (A & B & C & D) H. repeat split; lia. Qed.
Lemma centroid_ext a b : ny a = ny b -> nx a = nx b -> (forall i j, (i < ny a)%nat -> (j < nx a)%nat -> pix a i j = pix b i j) -> centroid2 a = centroid2 b.
Proof.
  intros Eh Ew H. unfold centroid2. rewrite <- Eh, <- Ew.
  rewrite (map_ext_in (fun c => pix a (fst c) (snd c)) (fun c => pix b (fst c) (snd c))) by (intros c I; apply in_positions in I as [I1 I2]; now apply H).
  rewrite (map_ext_in (fun c => nscale (of_nat (snd c)) (pix a (fst c) (snd c))) (fun c => nscale (of_nat (snd c)) (pix b (fst c) (snd c)))) by (intros c I; apply in_positions in I as [I1 I2]; now rewrite H).
  rewrite (map_ext_in (fun c => nscale (of_nat (fst c)) (pix a (fst c) (snd c))) (fun c => nscale (of_nat (fst c)) (pix b (fst c) (snd c)))) by (intros c I; apply in_positions in I as [I1 I2]; now rewrite H).
  reflexivity.
Qed.
Lemma reach_same d d' t y x y' x' off k k' : same_square d d' y x y' x' off -> inside d y x off -> inside d' y' x' off -> low_in d t y x off ->
  reach2 d t y x k -> reach2 d' t y' x' k' -> k = k' /\ (k <= off)%nat.
Proof.
  intros Sq I I' L (K1 & K2 & K3) (K1' & K2' & K3').
  assert (Sq' : same_square d' d y' x' y x off) by (intros a b Ha Hb; symmetry; now apply Sq).
  assert (L' := same_low _ _ _ _ _ _ _ off t Sq I I' (Nat.le_refl off) L).
  assert (k <= off)%nat by (destruct (Nat.le_gt_cases k off) as [C|C]; [exact C|]; exfalso; exact (K2 off C L)).
  assert (k' <= off)%nat by (destruct (Nat.le_gt_cases k' off) as [C|C]; [exact C|]; exfalso; exact (K2' off C L')).
  split; [|assumption]. destruct (Nat.lt_trichotomy k k') as [C|[C|C]]; [|exact C|].
  - exfalso. destruct K3 as [K3|K3]; [|apply K3; apply (inside_le d y x off); [exact I|lia]].
    apply (K2' k C). now apply (same_low _ _ _ _ _ _ _ k t Sq I I').
  - exfalso. destruct K3' as [K3'|K3']; [|apply K3'; apply (inside_le d' y' x' off); [exact I'|lia]].
    apply (K2 k' C). now apply (same_low _ _ _ _ _ _ _ k' t Sq' I' I).
Qed.
Lemma sumn_nonneg n f : (forall i, (i < n)%nat -> 0 <= f i) -> 0 <= sumn n f.
Proof. induction n as [|n IH]; intros H; [apply Qcle_refl|]. cbn [sumn]. assert (A := IH ltac:(intros; apply H; lia)). assert (B := H n ltac:(lia)). generalize dependent (sumn n f). generalize dependent (f n). intros. qclra. Qed.
Lemma sumn_pos n f k : (k < n)%nat -> (forall i, (i < n)%nat -> 0 <= f i) -> 0 < f k -> 0 < sumn n f.
Proof.
  induction n as [|n IH]; intros K H P; [lia|]. cbn [sumn]. assert (A : 0 <= sumn n f) by (apply sumn_nonneg; intros; apply H; lia). assert (B := H n ltac:(lia)).
  destruct (Nat.eq_dec k n) as [->|N].
  - generalize dependent (sumn n f). generalize dependent (f n). intros. qclra.
  - assert (C := IH ltac:(lia) ltac:(intros; apply H; lia) P). generalize dependent (sumn n f). generalize dependent (f n). intros. qclra.
Qed.
Lemma optimize_moved d d' z y x y' x' off : fmax2 d = Ok (y, x) -> fmax2 d' = Ok (y', x') -> same_square d d' y x y' x' off ->
  inside d y x off -> inside d' y' x' off -> (forall i j, (i < ny d)%nat -> (j < nx d)%nat -> pix d i j = Some (z i j) /\ 0 <= z i j) -> 0 < z y x -> low_in d (Q2Qc (9 # 10) * z y x) y x off ->
  exists u v u' v', fcentroid2 d = Ok (u, v) /\ fcentroid2 d' = Ok (u', v') /\
    minus u' u = Some (Qc_of_Z (Z.of_nat y' - Z.of_nat y)) /\ minus v' v = Some (Qc_of_Z (Z.of_nat x' - Z.of_nat x)).
Proof.
  intros E E' Sq I I' Em Pos L. destruct (optimize2_spec d centroid2 (Q2Qc (9 # 10)) y x E) as (m1 & k & P & R & O).
  destruct (optimize2_spec d' centroid2 (Q2Qc (9 # 10)) y' x' E') as (m2 & k' & P' & R' & O').
  pose proof I as (A1 & A2 & A3 & A4). pose proof I' as (B1 & B2 & B3 & B4).
  assert (Q := Sq off off ltac:(lia) ltac:(lia)).
  replace (y - off + off)%nat with y in Q by lia. replace (x - off + off)%nat with x in Q by lia.
  replace (y' - off + off)%nat with y' in Q by lia. replace (x' - off + off)%nat with x' in Q by lia.
  destruct (Em y x ltac:(lia) ltac:(lia)) as [Ez _].
  assert (m1 = z y x) as -> by congruence. assert (m2 = z y x) as -> by congruence.
  destruct (reach_same _ _ _ _ _ _ _ _ _ _ Sq I I' L R R') as [<- K]. unfold fcentroid2. rewrite O, O'.
  assert (W : centroid2 (window d y x k) = centroid2 (window d' y' x' k)).
  { apply centroid_ext; try reflexivity. intros i j Hi Hj. cbn [window ny nx pix] in *.
    assert (Q' := Sq (off - k + i)%nat (off - k + j)%nat ltac:(lia) ltac:(lia)).
    replace (y - off + (off - k + i))%nat with (y - k + i)%nat in Q' by lia. replace (x - off + (off - k + j))%nat with (x - k + j)%nat in Q' by lia.
    replace (y' - off + (off - k + i))%nat with (y' - k + i)%nat in Q' by lia. replace (x' - off + (off - k + j))%nat with (x' - k + j)%nat in Q' by lia. exact Q'. }
  rewrite <- W. destruct (k =? 0)%nat.
  - do 4 eexists. split; [reflexivity|]. split; [reflexivity|]. split; apply minus_number.
  - assert (T : 0 < square_sum y x k z).
    { unfold square_sum. apply (sumn_pos _ _ k); [lia| |].
      - intros i Hi. apply sumn_nonneg. intros j Hj. apply Em; lia.
      - apply (sumn_pos _ _ k); [lia| |].
        + intros j Hj. apply Em; lia.
        + replace (y - k + k)%nat with y by lia. replace (x - k + k)%nat with x by lia. exact Pos. }
    assert (Nz : square_sum y x k z <> 0) by apply not_eq_sym, Qclt_not_eq, T.
    rewrite (centroid2_window d y x k z ltac:(lia) ltac:(lia) ltac:(intros i j Hi Hj; apply Em; lia) Nz).
    cbn [fst snd nadd]. do 4 eexists. split; [reflexivity|]. split; [reflexivity|].
    unfold minus, Z.sub. rewrite !Qc_of_Z_plus, !Qc_of_Z_opp. unfold of_nat. split; apply (f_equal Some); ring.
Qed.
Lemma oneD_2 d : (2 <= ny d)%nat -> (2 <= nx d)%nat -> oneD d = false.
Proof. intros Hy Hx. apply not_true_iff_false. intros H. apply oneD_cases in H; lia. Qed.
Theorem kernel_centroid st p p' z z' y x y' x' off : zeroed cval p z -> zeroed cval p' z' ->
  (forall i j, 0 <= z i j) -> 0 < z y x -> summit (ny (img p)) (nx (img p)) z y x -> summit (ny (img p')) (nx (img p')) z' y' x' ->
  (1 <= off)%nat -> inside (img p) y x off -> inside (img p') y' x' off ->
  (forall a b, (a <= off + off)%nat -> (b <= off + off)%nat -> z (y - off + a)%nat (x - off + b)%nat = z' (y' - off + a)%nat (x' - off + b)%nat) ->
  (exists a b, (a <= off + off)%nat /\ (b <= off + off)%nat /\ z (y - off + a)%nat (x - off + b)%nat < Q2Qc (9 # 10) * z y x) ->
  exists st1 st2, set_reference fit1 fit2 cval Centroid st p false = Ok st1 /\
    execute_alignkernel fit1 fit2 cval Centroid Translation st1 p' =
      (st2, Ok (Some (Qc_of_Z (Z.of_nat x' - Z.of_nat x)), Some (Qc_of_Z (Z.of_nat y' - Z.of_nat y)))).
Proof.
  intros Hz Hz' Nn Pos S S' O I I' Sq (a & b & Ha & Hb & Lo).
  destruct (handle_zero p z Hz) as (d & E & V). destruct (handle_zero p' z' Hz') as (d' & E' & V').
  assert (G := fmax2_at _ _ _ (summit_max _ _ _ _ _ _ V S)). assert (G' := fmax2_at _ _ _ (summit_max _ _ _ _ _ _ V' S')).
  destruct V as (Vh & Vw & V). destruct V' as (Vh' & Vw' & V').
  unfold inside in I, I'. rewrite <- Vh, <- Vw in I. rewrite <- Vh', <- Vw' in I'. pose proof I as (A1 & A2 & A3 & A4). pose proof I' as (B1 & B2 & B3 & B4). rewrite Vh in A3. rewrite Vw in A4. rewrite Vh' in B3. rewrite Vw' in B4.
  destruct (optimize_moved d d' z y x y' x' off G G') as (u & v & u' & v' & F & F' & Mu & Mv); [|exact I|exact I'| |exact Pos| |].
  - intros a1 b1 Ha1 Hb1. rewrite V, V' by lia. apply (f_equal Some). now apply Sq.
  - intros i j Hi Hj. rewrite Vh in Hi. rewrite Vw in Hj. split; [now apply V|apply Nn].
  - exists (y - off + a)%nat, (x - off + b)%nat, (z (y - off + a)%nat (x - off + b)%nat). split; [lia|]. split; [lia|]. split; [apply V; lia|exact Lo].
  - unfold set_reference, execute_alignkernel, getxy. rewrite E, E'. cbn [bind]. rewrite !oneD_2 by lia. cbn [locate2]. rewrite F, F'. cbn [bind fixedxy movingxy fst snd].
    do 2 eexists. split; [reflexivity|]. cbn [fixedxy fst snd]. rewrite Mu, Mv. reflexivity.
Qed.

(* from end to end *)
Theorem displaced_aligned st p p' sy sx y x y' x' m missing : writable cval p -> writable cval p' -> peak cval (img p) y x m -> displaced (img p) (img p') sy sx ->
  (y' < ny (img p'))%nat -> (x' < nx (img p'))%nat -> (Z.of_nat y' = Z.of_nat y + sy)%Z -> (Z.of_nat x' = Z.of_nat x + sx)%Z ->
  (forall i j v, holds cval (img p') i j v -> fresh (img p) (img p') sy sx i j -> v < m) ->
  exists st1 st2, set_reference fit1 fit2 cval Max st p false = Ok st1 /\
    execute_alignkernel fit1 fit2 cval Max Translation st1 p' = (st2, Ok (Some (Qc_of_Z sx), Some (Qc_of_Z sy))) /\
    forall i j, (i < ny (img p))%nat -> (j < nx (img p))%nat -> (0 <= Z.of_nat i + sy < Z.of_nat (ny (img p')))%Z -> (0 <= Z.of_nat j + sx < Z.of_nat (nx (img p')))%Z ->
      pix (shifted missing (img p') sx sy) i j = pix (img p) i j.
Proof.
  intros W W' P D Hy Hx Ey Ex N. assert (P' := peak_moved _ _ _ _ _ _ _ _ _ P D Hy Hx Ey Ex N).
  destruct (kernel_max st p p' _ _ _ _ _ _ W W' P P') as (st1 & st2 & E1 & E2). exists st1, st2. split; [exact E1|]. split.
  - rewrite E2. replace (Z.of_nat x' - Z.of_nat x)%Z with sx by lia. replace (Z.of_nat y' - Z.of_nat y)%Z with sy by lia. reflexivity.
  - intros. now apply shifted_back.
Qed.
(* alignment on the previous image *)
Theorem previous k st p st1 r q : execute_alignkernel fit1 fit2 cval k Translation st p = (st1, Ok r) ->
  exists s a, set_reference fit1 fit2 cval k st1 q true = Ok s /\ set_reference fit1 fit2 cval k st1 p false = Ok a /\ fixedxy s = fixedxy a /\ movingxy s = movingxy a /\ fixedxy s <> None.
Proof.
  unfold execute_alignkernel, set_reference. destruct (getxy fit1 fit2 cval k p) as [xy|e]; [|discriminate]. cbn [fixedxy bind]. destruct (fixedxy st) as [f|]; [|discriminate].
  intros H. assert (st1 = {| fixedxy := Some f; movingxy := Some xy |}) as -> by congruence. do 2 eexists. split; [reflexivity|]. split; [reflexivity|]. cbn. repeat split; discriminate.
Qed.
Theorem other_reference k st q st2 q1 : set_reference fit1 fit2 cval k st q false = Ok st2 ->
  exists s a, set_reference fit1 fit2 cval k st2 q1 true = Ok s /\ set_reference fit1 fit2 cval k st q1 true = Ok a /\ fixedxy s = fixedxy a /\ movingxy s = movingxy a.
Proof.
  unfold set_reference. destruct (getxy fit1 fit2 cval k q) as [xy|e]; cbn [bind]; [|discriminate]. intros H.
  assert (st2 = {| fixedxy := Some xy; movingxy := movingxy st |}) as -> by congruence. do 2 eexists. split; [reflexivity|]. split; [reflexivity|]. cbn. repeat split.
Qed.
Theorem previous_first k p q type st : set_reference fit1 fit2 cval k {| fixedxy := None; movingxy := None |} q true = Ok st ->
  exists e, snd (execute_alignkernel fit1 fit2 cval k type st p) = Err e.
Proof.
  cbn. intros H. assert (st = {| fixedxy := None; movingxy := None |}) as -> by congruence. unfold execute_alignkernel. destruct type; [|eexists; reflexivity..]. destruct (getxy fit1 fit2 cval k p); eexists; reflexivity.
Qed.
Theorem unsupported k st p type : type <> Translation -> execute_alignkernel fit1 fit2 cval k type st p = (st, Err NotImplementedError).
Proof. intros H. destruct type; [now elim H|reflexivity..]. Qed.
Theorem kernel_error k st p e : set_reference fit1 fit2 cval k st p false = Err e -> execute_alignkernel fit1 fit2 cval k Translation st p = (st, Err e).
Proof. unfold set_reference, execute_alignkernel. destruct (getxy fit1 fit2 cval k p); cbn; congruence. Qed.
(* nothing to align on *)
Theorem nothing k st p : k <> Centroid -> k <> Gaussmax -> writable cval p -> (forall i j v, ~ holds cval (img p) i j v) ->
  set_reference fit1 fit2 cval k st p false = Err ValueError.
Proof.
  intros Hc Hg W N. destruct (handle_nan cval p W) as (d & E & (E1 & E2 & H)).
  assert (M : no_number (flat d)). { intros v I. apply in_flat in I as (i & j & Hi & Hj & <-). destruct (pix d i j) as [q|] eqn:Q; [|reflexivity]. exfalso. rewrite E1 in Hi. rewrite E2 in Hj. apply (N i j q). now apply H. }
  destruct (fmax_spec (flat d)) as (_ & F1 & F2 & _).
  unfold set_reference, getxy. destruct k; try (now elim Hc || now elim Hg).
  - rewrite E. cbn [bind]. unfold locate1, locate2, fmin2.
    assert (X : fmin1 (flat d) = Err ValueError).
    { apply F2. exact M. }
    rewrite X. now destruct (oneD d).
  - rewrite E. cbn [bind]. unfold locate1, locate2, fmax2.
    assert (X : fmax1 (flat d) = Err ValueError) by (apply F1; exact M).
    rewrite X. now destruct (oneD d).
Qed.
Theorem unwritable k st p : k <> Centroid -> ~ writable cval p -> integers p = true -> set_reference fit1 fit2 cval k st p false = Err ValueError.
Proof.
  intros Hc W T. destruct cval as [| |q] eqn:C.
  1, 2: exfalso; apply W; right; intros; discriminate.
  destruct (Qc_eqb q 0) eqn:Z.
  - exfalso. apply W. right. intros q' i j H H0. apply Qc_eqb_spec in Z. congruence.
  - destruct (existsb (is_missing (Number q)) (flat (img p))) eqn:X.
    + unfold set_reference, getxy. destruct k; [now elim Hc| | |]; unfold handle_missing; rewrite Z, X, T; reflexivity.
    + exfalso. apply W. right. intros q' i j H H0 Hi Hj Q. apply not_true_iff_false in X. apply X. apply existsb_flat. exists i, j. split; [exact Hi|]. split; [exact Hj|]. rewrite Q. cbn. apply Qc_eqb_spec. congruence.
Qed.
End S.
(* refutations *)
Definition dark : image := {| ny := 3; nx := 3; pix := fun i j => if (i =? 2)%nat && (j =? 1)%nat then Some 0 else Some (of_nat (1 + i + j)) |}.
Theorem zero_min : forall fit1 fit2, exists p y x, getxy fit1 fit2 (Number 0) Min p = Ok (Some (of_nat x), Some (of_nat y)) /\ pix (img p) y x = Some 0 /\
  forall i j, (i, j) <> (y, x) -> exists v, pix (img p) i j = Some v /\ 0 < v.
Proof.
  intros fit1 fit2. exists {| img := dark; integers := false |}, 2%nat, 1%nat. split; [vm_compute; reflexivity|]. split; [reflexivity|].
  intros i j H. cbn [img dark pix]. destruct ((i =? 2)%nat && (j =? 1)%nat) eqn:E.
  - apply andb_prop in E as [E1 E2]. apply Nat.eqb_eq in E1, E2. subst. now elim H.
  - eexists. split; [reflexivity|]. unfold of_nat. change (Q2Qc 0) with (Qc_of_Z 0). apply Qc_of_Z_lt. lia.
Qed.
Definition holed : image := {| ny := 3; nx := 3; pix := fun i j => if (i =? 0)%nat && (j =? 1)%nat then None else Some (of_nat (if (i =? 1)%nat && (j =? 1)%nat then 9 else i + j)) |}.
Theorem other_nan : forall fit1 fit2, exists p x y, getxy fit1 fit2 OtherNan Centroid p = Ok (None, None) /\ getxy fit1 fit2 NpNan Centroid p = Ok (Some x, Some y).
Proof.
  intros fit1 fit2. exists {| img := holed; integers := false |}. eexists. eexists. split; vm_compute; reflexivity.
Qed.
