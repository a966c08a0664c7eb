From Verif Require Import ScalarModel ScalarSpec.
From Coq Require Import Qround Lia.
Local Open Scope Qc_scope.

Lemma floor_bounds (x : Qc) : Qc_of_Z (floor x) <= x /\ x < Qc_of_Z (floor x) + 1.
Proof.
  unfold floor, Qc_of_Z. pose proof (Qfloor_le (this x)) as A. pose proof (Qlt_floor (this x)) as B.
  rewrite inject_Z_plus in B. change (inject_Z 1) with 1%Q in B. split; qclra.
Qed.
Lemma ceil_bounds (x : Qc) : x <= Qc_of_Z (ceil x) /\ Qc_of_Z (ceil x) < x + 1.
Proof.
  unfold ceil, Qc_of_Z. pose proof (Qle_ceiling (this x)) as A. pose proof (Qceiling_lt (this x)) as B.
  unfold Z.sub in B. rewrite inject_Z_plus in B. change (inject_Z (- (1))) with (-(1))%Q in B. split; qclra.
Qed.
Lemma of_Z_1 : Qc_of_Z 1 = 1. Proof. apply Qc_is_canon. reflexivity. Qed.
Lemma half_half : half + half = 1. Proof. apply Qc_is_canon. reflexivity. Qed.
Lemma rint_bounds (x : Qc) : x - half <= Qc_of_Z (rint x) /\ Qc_of_Z (rint x) <= x + half.
Proof.
  unfold rint. pose proof (floor_bounds x) as [A B]. pose proof half_half as H.
  set (f := floor x) in *. assert (E : Qc_of_Z (f + 1) = Qc_of_Z f + 1) by (rewrite Qc_of_Z_plus, of_Z_1; reflexivity).
  generalize dependent half. intros h H.
  destruct (Qc_ltb (x - Qc_of_Z f) h) eqn:E1; qc_bool.
  { split; qclra. }
  destruct (Qc_ltb h (x - Qc_of_Z f)) eqn:E2; qc_bool.
  { rewrite E. split; qclra. }
  destruct (Z.even f); [split; qclra|rewrite E; split; qclra].
Qed.
Lemma of_Z_lt_1 a b : Qc_of_Z a < Qc_of_Z b + 1 -> (a <= b)%Z.
Proof.
  intros H. assert (Qc_of_Z a < Qc_of_Z (b + 1)) by (rewrite Qc_of_Z_plus, of_Z_1; exact H).
  rewrite Qc_of_Z_lt in H0. lia.
Qed.
(* a half is rounded to the even neighbour *)
Lemma rint_tie (x : Qc) k : x = Qc_of_Z k + half -> (k <= rint x <= k + 1)%Z /\ Z.even (rint x) = true.
Proof.
  intros E. unfold rint. pose proof (floor_bounds x) as [A B]. pose proof half_half as H.
  assert (F : floor x = k).
  { assert (Qc_of_Z (floor x) < Qc_of_Z k + 1) by (generalize dependent half; intros; qclra).
    assert (Qc_of_Z k < Qc_of_Z (floor x) + 1) by (generalize dependent half; intros; qclra).
    apply of_Z_lt_1 in H0, H1. lia. }
  rewrite F in *.
  assert (L : Qc_ltb (x - Qc_of_Z k) half = false) by (apply Qc_ltb_ge; generalize dependent half; intros; qclra).
  assert (G : Qc_ltb half (x - Qc_of_Z k) = false) by (apply Qc_ltb_ge; generalize dependent half; intros; qclra).
  rewrite L, G. destruct (Z.even k) eqn:K; [split; [lia|exact K]|]. split; [lia|].
  rewrite Z.even_add, K. reflexivity.
Qed.
Lemma rint_mono x y : x <= y -> (rint x <= rint y)%Z.
Proof.
  intros H. pose proof (rint_bounds x) as [A B]. pose proof (rint_bounds y) as [C D]. pose proof half_half as Hh.
  destruct (Z.le_gt_cases (rint x) (rint y)) as [L|G]; [exact L|exfalso].
  assert (G1 : Qc_of_Z (rint y) + 1 <= Qc_of_Z (rint x)).
  { rewrite <- of_Z_1, <- Qc_of_Z_plus. apply Qc_of_Z_le. lia. }
  assert (E : x = y) by (generalize dependent half; intros; apply Qc_eq_iff; qclra).
  subst y. lia.
Qed.
Lemma rint_of_Z k : rint (Qc_of_Z k) = k.
Proof.
  pose proof (rint_bounds (Qc_of_Z k)) as [A B]. pose proof half_half as H.
  assert (P : Qc_of_Z (rint (Qc_of_Z k)) < Qc_of_Z k + 1) by (generalize dependent half; intros; qclra).
  assert (Q : Qc_of_Z k < Qc_of_Z (rint (Qc_of_Z k)) + 1) by (generalize dependent half; intros; qclra).
  apply of_Z_lt_1 in P, Q. lia.
Qed.

(* ---- colours ---- *)
Lemma land255 c : (Z.land c 255 = c mod 256)%Z.
Proof. change 255%Z with (Z.ones 8). rewrite Z.land_ones by lia. reflexivity. Qed.
Definition code (x : Qc) : Z := rint (x * Qc_of_Z top).
Lemma top_value : top = 16777215%Z. Proof. reflexivity. Qed.
Lemma code_range x : between 0 x 1 -> (0 <= code x <= top)%Z.
Proof.
  intros [A B]. unfold code. assert (T : 0 <= Qc_of_Z top) by (apply (Qc_of_Z_le 0); vm_compute; discriminate).
  split.
  - rewrite <- (rint_of_Z 0). apply rint_mono. change (Qc_of_Z 0) with 0. generalize dependent (Qc_of_Z top). intros; qcnra.
  - rewrite <- (rint_of_Z top) at 2. apply rint_mono. generalize dependent (Qc_of_Z top). intros; qcnra.
Qed.
Lemma rgb_decode x r g b : between 0 x 1 -> rgb x = (r, g, b) ->
  byte r /\ byte g /\ byte b /\ (r + 256 * g + 65536 * b = code x)%Z.
Proof.
  intros H E. pose proof (code_range x H) as C. rewrite top_value in C. unfold rgb in E. fold (code x) in E.
  rewrite !land255, !Z.shiftr_div_pow2 in E by lia.
  change (2 ^ 8)%Z with 256%Z in E. change (2 ^ 16)%Z with 65536%Z in E.
  inversion E; subst r g b; clear E. unfold byte. generalize dependent (code x). intros c C.
  assert (A1 := Z.mod_pos_bound c 256 ltac:(lia)). assert (A2 := Z.mod_pos_bound (c / 256) 256 ltac:(lia)).
  assert (A3 := Z.mod_pos_bound (c / 65536) 256 ltac:(lia)).
  split; [lia|split; [lia|split; [lia|]]].
  assert (D : (c / 65536 = c / 256 / 256)%Z) by (rewrite Z.div_div by lia; reflexivity).
  rewrite D in *. set (q := (c / 256)%Z) in *.
  assert (Q2 : (q / 256 < 256)%Z) by (apply Z.div_lt_upper_bound; [lia|]; unfold q; apply Z.div_lt_upper_bound; lia).
  assert (Q1 : (0 <= q / 256)%Z) by (apply Z.div_pos; [unfold q; apply Z.div_pos; lia|lia]).
  rewrite (Z.mod_small (q / 256)) by lia.
  pose proof (Z.div_mod c 256 ltac:(lia)). pose proof (Z.div_mod q 256 ltac:(lia)). fold q in H0. lia.
Qed.
Lemma code_mono x y : x <= y -> (code x <= code y)%Z.
Proof.
  intros H. apply rint_mono. assert (T : 0 <= Qc_of_Z top) by (apply (Qc_of_Z_le 0); vm_compute; discriminate).
  generalize dependent (Qc_of_Z top). intros; qcnra.
Qed.
Lemma code_close x : Qc_of_Z (code x) - x * Qc_of_Z top <= half /\ x * Qc_of_Z top - Qc_of_Z (code x) <= half.
Proof. pose proof (rint_bounds (x * Qc_of_Z top)) as [A B]. fold (code x) in A, B. generalize dependent half. intros; split; qclra. Qed.

Theorem rgb_ok : forall x, between 0 x 1 -> exists r g b, rgb x = (r, g, b) /\ byte r /\ byte g /\ byte b /\
  Qc_of_Z (r + 256 * g + 65536 * b) - x * Qc_of_Z (2 ^ 24 - 1) <= half /\
  x * Qc_of_Z (2 ^ 24 - 1) - Qc_of_Z (r + 256 * g + 65536 * b) <= half.
Proof.
  intros x H. destruct (rgb x) as [[r g] b] eqn:E. exists r, g, b.
  destruct (rgb_decode x r g b H E) as (A & B & C & D). rewrite D. destruct (code_close x). auto 8.
Qed.
Theorem rgb_monotone : forall x y r g b r' g' b', between 0 x 1 -> between 0 y 1 -> x <= y ->
  rgb x = (r, g, b) -> rgb y = (r', g', b') -> (r + 256 * g + 65536 * b <= r' + 256 * g' + 65536 * b')%Z.
Proof.
  intros x y r g b r' g' b' H H' L E E'. destruct (rgb_decode _ _ _ _ H E) as (_ & _ & _ & ->).
  destruct (rgb_decode _ _ _ _ H' E') as (_ & _ & _ & ->). now apply code_mono.
Qed.
Theorem rgb_onto : forall r g b, byte r -> byte g -> byte b ->
  rgb (Qc_of_Z (r + 256 * g + 65536 * b) / Qc_of_Z (2 ^ 24 - 1)) = (r, g, b).
Proof.
  unfold byte. intros r g b R G B. unfold rgb.
  replace (Qc_of_Z (r + 256 * g + 65536 * b) / Qc_of_Z (2 ^ 24 - 1) * Qc_of_Z top) with (Qc_of_Z (r + 256 * g + 65536 * b)).
  2:{ fold top. assert (T : Qc_of_Z top <> 0) by (intro T; apply (Qc_of_Z_inj top 0) in T; discriminate T).
      generalize dependent (Qc_of_Z top). intros t T. field. exact T. }
  rewrite rint_of_Z, !land255, !Z.shiftr_div_pow2 by lia.
  change (2 ^ 8)%Z with 256%Z. change (2 ^ 16)%Z with 65536%Z.
  set (c := (r + 256 * g + 65536 * b)%Z).
  assert (C1 : (c mod 256 = r)%Z) by (symmetry; apply Z.mod_unique with (g + 256 * b)%Z; [left; lia|unfold c; ring]).
  assert (C2 : (c / 256 = g + 256 * b)%Z) by (symmetry; apply Z.div_unique with r; [left; lia|unfold c; ring]).
  assert (C3 : (c / 65536 = b)%Z) by (symmetry; apply Z.div_unique with (r + 256 * g)%Z; [left; lia|unfold c; ring]).
  rewrite C1, C2, C3. f_equal; [f_equal|].
  - symmetry. apply Z.mod_unique with b; [left; lia|ring].
  - apply Z.mod_small. lia.
Qed.
Theorem colour_ok : forall x alpha, between 0 x 1 -> exists r g b, rgb x = (r, g, b) /\
  colour x alpha true = (Qc_of_Z r, Qc_of_Z g, Qc_of_Z b, alpha) /\
  exists r' g' b', colour x alpha false = (r', g', b', alpha) /\ between 0 r' 1 /\ between 0 g' 1 /\ between 0 b' 1 /\
    r' * Qc_of_Z 255 = Qc_of_Z r /\ g' * Qc_of_Z 255 = Qc_of_Z g /\ b' * Qc_of_Z 255 = Qc_of_Z b.
Proof.
  intros x alpha H. destruct (rgb_ok x H) as (r & g & b & E & R & G & B & _). exists r, g, b. unfold colour. rewrite E.
  split; [reflexivity|]. split; [reflexivity|]. do 3 eexists. split; [reflexivity|].
  assert (K : forall v, byte v -> between 0 (Qc_of_Z v / Qc_of_Z 255) 1 /\ Qc_of_Z v / Qc_of_Z 255 * Qc_of_Z 255 = Qc_of_Z v).
  { intros v [L U]. apply Qc_of_Z_le in L, U. change (Qc_of_Z 0) with 0 in L.
    assert (P : 0 < Qc_of_Z 255) by reflexivity. assert (N : Qc_of_Z 255 <> 0) by discriminate.
    generalize dependent (Qc_of_Z 255). generalize dependent (Qc_of_Z v). intros a L q U P N.
    assert (F : a / q * q = a) by (field; exact N). split; [|exact F]. set (c := a / q) in *. clearbody c. subst a.
    split; [destruct (Qc_leb 0 c) eqn:X|destruct (Qc_leb c 1) eqn:X]; qc_bool; try exact X; exfalso; qcnra. }
  destruct (K r R), (K g G), (K b B). auto 8.
Qed.

(* ---- interpolation ---- *)
Lemma where_spec test xs : forall i j, In j (where_from i test xs) <->
  (exists k a, j = (i + k)%nat /\ nth_error xs k = Some a /\ test a = true).
Proof.
  induction xs as [|a xs IH]; intros i j; cbn [where_from].
  - split; [intros []|intros (k & b & _ & H & _); destruct k; discriminate H].
  - destruct (test a) eqn:T; [cbn [In]|]; rewrite IH; clear IH.
    + split.
      * intros [<-|(k & b & -> & H & H')]; [exists 0%nat, a; split; [lia|auto]|].
        exists (S k), b. split; [lia|auto].
      * intros (k & b & -> & H & H'). destruct k as [|k]; [left; lia|]. right. exists k, b. split; [lia|auto].
    + split.
      * intros (k & b & -> & H & H'). exists (S k), b. split; [lia|auto].
      * intros (k & b & -> & H & H'). destruct k as [|k]; [cbn in H; congruence|]. exists k, b. split; [lia|auto].
Qed.
Lemma where_sorted test xs : forall i, StronglySorted lt (where_from i test xs).
Proof.
  induction xs as [|a xs IH]; intros i; cbn [where_from]; [constructor|].
  destruct (test a); [|apply IH]. constructor; [apply IH|]. apply Forall_forall. intros j H.
  apply where_spec in H. destruct H as (k & b & -> & _). lia.
Qed.
Lemma sorted_rev_head (l : list nat) i t : StronglySorted lt l -> rev l = i :: t -> In i l /\ forall j, In j l -> (j <= i)%nat.
Proof.
  intros H E. assert (F : l = rev t ++ [i]) by (rewrite <- (rev_involutive l), E; reflexivity).
  rewrite F in *. split; [apply in_or_app; right; left; reflexivity|]. clear E F.
  intros j J. apply in_app_or in J. destruct J as [J|[<-|[]]]; [|lia].
  revert H J. induction (rev t) as [|a u IH]; intros H J; [destruct J|]. inversion H; subst.
  destruct J as [<-|J]; [|auto]. rewrite Forall_forall in H3. specialize (H3 i). 
  assert (In i (u ++ [i])) by (apply in_or_app; right; left; reflexivity). apply H3 in H0. lia.
Qed.

(* the last point that is not above *)
Theorem floor_some : forall xs ys x i a y, nth_error xs i = Some a -> a <= x ->
  (forall j b, (i < j)%nat -> nth_error xs j = Some b -> x < b) -> nth_error ys i = Some y ->
  interp_floor xs ys x = Ok (Some y).
Proof.
  intros xs ys x i a y A L N Y. unfold interp_floor. set (w := where_from 0 _ xs).
  assert (I : In i w) by (apply where_spec; exists i, a; split; [lia|split; [exact A|now apply Qc_leb_le]]).
  destruct (rev w) as [|j t] eqn:E.
  { assert (w = []) by (rewrite <- (rev_involutive w), E; reflexivity). rewrite H in I. destruct I. }
  destruct (sorted_rev_head w j t (where_sorted _ _ _) E) as [J M]. apply M in I.
  apply where_spec in J. destruct J as (k & b & -> & B & T). apply Qc_leb_le in T. cbn [plus] in *.
  assert (k = i). { destruct (Nat.eq_dec k i) as [->|D]; [reflexivity|]. exfalso. apply (N k b) in B; [|lia]. qclra. }
  subst k. unfold at_index. rewrite Y. reflexivity.
Qed.
Theorem floor_none : forall xs ys x, interp_floor xs ys x = Ok None <-> Forall (fun a => x < a) xs.
Proof.
  intros xs ys x. unfold interp_floor. set (w := where_from 0 _ xs). split.
  - intros H. apply Forall_forall. intros a A. apply In_nth_error in A. destruct A as [k A].
    destruct (Qc_leb a x) eqn:L; [|now qc_bool]. exfalso.
    assert (I : In k w) by (apply where_spec; exists k, a; auto).
    destruct (rev w) as [|j t] eqn:E.
    { assert (w = []) by (rewrite <- (rev_involutive w), E; reflexivity). rewrite H0 in I. destruct I. }
    unfold at_index in H. destruct (nth_error ys j); discriminate H.
  - intros F. destruct w as [|i t] eqn:E; [reflexivity|exfalso].
    assert (I : In i w) by (rewrite E; left; reflexivity). apply where_spec in I.
    destruct I as (k & a & -> & A & T). apply nth_error_In in A. rewrite Forall_forall in F. apply F in A.
    apply Qc_leb_le in T. qclra.
Qed.
(* the first point that is not below *)
Theorem ceil_some : forall xs ys x i a y, nth_error xs i = Some a -> x <= a ->
  (forall j b, (j < i)%nat -> nth_error xs j = Some b -> b < x) -> nth_error ys i = Some y ->
  interp_ceil xs ys x = Ok (Some y).
Proof.
  intros xs ys x i a y A L N Y. unfold interp_ceil. set (w := where_from 0 _ xs).
  assert (I : In i w) by (apply where_spec; exists i, a; split; [lia|split; [exact A|now apply Qc_leb_le]]).
  pose proof (where_sorted (fun a => Qc_leb x a) xs 0) as W. fold w in W.
  assert (J : forall j, In j w -> exists b, nth_error xs j = Some b /\ x <= b).
  { intros j J. apply where_spec in J. destruct J as (k & b & -> & B & T). apply Qc_leb_le in T. eauto. }
  destruct w as [|j t]; [destruct I|]. destruct (J j ltac:(left; reflexivity)) as (b & B & T).
  assert (j = i). { destruct I as [->|I]; [reflexivity|]. inversion W; subst. rewrite Forall_forall in H2. apply H2 in I.
    apply (N j b) in B; [|lia]. exfalso. qclra. }
  subst j. unfold at_index. rewrite Y. reflexivity.
Qed.
Theorem ceil_none : forall xs ys x, interp_ceil xs ys x = Ok None <-> Forall (fun a => a < x) xs.
Proof.
  intros xs ys x. unfold interp_ceil. set (w := where_from 0 _ xs). split.
  - intros H. apply Forall_forall. intros a A. apply In_nth_error in A. destruct A as [k A].
    destruct (Qc_leb x a) eqn:L; [|now qc_bool]. exfalso.
    assert (I : In k w) by (apply where_spec; exists k, a; auto).
    destruct w as [|j t] eqn:E; [destruct I|].
    unfold at_index in H. destruct (nth_error ys j); discriminate H.
  - intros F. destruct w as [|i t] eqn:E; [reflexivity|exfalso].
    assert (I : In i w) by (rewrite E; left; reflexivity). apply where_spec in I.
    destruct I as (k & a & -> & A & T). apply nth_error_In in A. rewrite Forall_forall in F. apply F in A.
    apply Qc_leb_le in T. qclra.
Qed.
(* on an increasing axis the points before a point not above are not above either *)
Lemma sorted_nth xs : StronglySorted Qcle xs -> forall i j a b, (i <= j)%nat -> nth_error xs i = Some a -> nth_error xs j = Some b -> a <= b.
Proof.
  induction 1 as [|c xs S IH F]; intros i j a b L A B; [destruct i; discriminate A|].
  destruct i as [|i], j as [|j]; cbn in A, B.
  - assert (a = b) by congruence. subst. apply Qcle_refl.
  - assert (c = a) by congruence. subst. rewrite Forall_forall in F. apply F. eapply nth_error_In; eauto.
  - lia.
  - apply (IH i j); [lia|auto|auto].
Qed.
Theorem floor_inside : forall xs ys x i a b y, StronglySorted Qcle xs -> nth_error xs i = Some a -> nth_error xs (S i) = Some b ->
  a <= x -> x < b -> nth_error ys i = Some y -> interp_floor xs ys x = Ok (Some y).
Proof.
  intros xs ys x i a b y S A B L L' Y. apply (floor_some xs ys x i a y); auto.
  intros j c J C. apply (sorted_nth xs S (Datatypes.S i) j b c) in C; auto. qclra.
Qed.
Theorem ceil_inside : forall xs ys x i a b y, StronglySorted Qcle xs -> nth_error xs i = Some a -> nth_error xs (S i) = Some b ->
  a < x -> x <= b -> nth_error ys (S i) = Some y -> interp_ceil xs ys x = Ok (Some y).
Proof.
  intros xs ys x i a b y S A B L L' Y. apply (ceil_some xs ys x (Datatypes.S i) b y); auto.
  intros j c J C. assert (c <= a) by (apply (sorted_nth xs S j i c a); auto; lia). qclra.
Qed.
Theorem interp_error : forall xs ys x e, interp_floor xs ys x = Err e \/ interp_ceil xs ys x = Err e ->
  e = IndexError /\ (length ys < length xs)%nat.
Proof.
  assert (K : forall test xs ys (i : nat) e, In i (where_from 0 test xs) -> at_index ys i = Err e ->
              e = IndexError /\ (length ys < length xs)%nat).
  { intros test xs ys i e I. apply where_spec in I. destruct I as (k & a & -> & A & _). unfold at_index. cbn [plus].
    destruct (nth_error ys k) eqn:Y; [discriminate|]. intros E. inversion E. split; [reflexivity|].
    apply nth_error_None in Y. assert (nth_error xs k <> None) by congruence. apply nth_error_Some in H. lia. }
  intros xs ys x e [H|H].
  - unfold interp_floor in H. destruct (rev _) as [|i t] eqn:E; [discriminate H|].
    apply (sorted_rev_head _ i t (where_sorted _ _ _)) in E. destruct E as [I _]. exact (K _ _ _ _ _ I H).
  - unfold interp_ceil in H. destruct (where_from _ _ _) as [|i t] eqn:E; [discriminate H|].
    eapply K; [|exact H]. rewrite E. left; reflexivity.
Qed.
