From Verif Require Import BaseProofs FtModel FtSpec FtProofs.
From Coq Require Import Ring Field.

(* what the proofs need of the complex numbers *)
Record exp_laws (K : complex_ops) : Type := {
  c1 : cnum K; copp : cnum K -> cnum K; cinv : nat -> cnum K;
  cring : ring_theory (czero K) c1 (cadd K) (cmul K) (fun x y => cadd K x (copp y)) copp eq;
  exp_add : forall p q, cexp K (p + q)%Qc = cmul K (cexp K p) (cexp K q);
  exp_int : forall z, cexp K (Qc_of_Z z) = c1;
  exp_orth : forall n t, (0 < n)%nat -> t mod Z.of_nat n <> 0 ->
    csum K n (fun j => cexp K (Qc_of_Z (Z.of_nat j * t) / Qc_of_Z (Z.of_nat n))%Qc) = czero K;
  scale_nat : forall n x, cscale K n x = cmul K (csum K n (fun _ => c1)) x;
  div_inv : forall x n, cdiv K x n = cmul K x (cinv n);
  inv_nat : forall n, (0 < n)%nat -> cmul K (csum K n (fun _ => c1)) (cinv n) = c1
}.

Definition ratio (z : Z) (n : nat) : Qc := (Qc_of_Z z / Qc_of_Z (Z.of_nat n))%Qc.
Lemma nat_Qc_ne n : (0 < n)%nat -> Qc_of_Z (Z.of_nat n) <> 0%Qc.
Proof. intros H. apply Qc_pos_ne, Qc_of_Z_pos. lia. Qed.
Lemma ratio_add a b n : (0 < n)%nat -> ratio (a + b) n = (ratio a n + ratio b n)%Qc.
Proof. intros H. unfold ratio. rewrite Qc_of_Z_plus. field. now apply nat_Qc_ne. Qed.
Lemma ratio_mul q n : (0 < n)%nat -> ratio (q * Z.of_nat n) n = Qc_of_Z q.
Proof. intros H. unfold ratio. rewrite Qc_of_Z_mult. field. now apply nat_Qc_ne. Qed.
Lemma Qc_of_Z_opp a : Qc_of_Z (- a) = (- Qc_of_Z a)%Qc.
Proof.
  assert (Qc_of_Z (- a) + Qc_of_Z a = 0)%Qc as H.
  { rewrite <- Qc_of_Z_plus, Z.add_opp_diag_l. reflexivity. }
  transitivity (Qc_of_Z (- a) + Qc_of_Z a - Qc_of_Z a)%Qc; [ring|]. rewrite H. ring.
Qed.
Lemma ratio_opp a n : ratio (- a) n = (- ratio a n)%Qc.
Proof. unfold ratio. rewrite Qc_of_Z_opp. unfold Qcdiv. ring. Qed.

Section Generic.
Context {K : complex_ops} (L : exp_laws K).
Local Notation C := (cnum K).
Local Notation "0" := (czero K).
Local Notation "1" := (c1 K L).
Local Infix "+" := (cadd K).
Local Infix "*" := (cmul K).
Local Notation e := (cexp K).
Local Notation sum := (csum K).
Local Notation opp := (copp K L).
Add Ring Cring : (cring K L).

Lemma csum_ext n g h : (forall i, (i < n)%nat -> g i = h i) -> sum n g = sum n h.
Proof. induction n as [|n IH]; intros H; [reflexivity|]. cbn. rewrite IH by (intros; apply H; lia). f_equal. apply H. lia. Qed.
Lemma csum_zero n : sum n (fun _ => 0) = 0.
Proof. induction n as [|n IH]; [reflexivity|]. cbn. rewrite IH. ring. Qed.
Lemma csum_add n g h : sum n (fun i => g i + h i) = sum n g + sum n h.
Proof. induction n as [|n IH]; cbn; [ring|]. rewrite IH. ring. Qed.
Lemma csum_mul_l n x g : sum n (fun i => x * g i) = x * sum n g.
Proof. induction n as [|n IH]; cbn; [ring|]. rewrite IH. ring. Qed.
Lemma csum_mul_r n x g : sum n (fun i => g i * x) = sum n g * x.
Proof. induction n as [|n IH]; cbn; [ring|]. rewrite IH. ring. Qed.
Lemma csum_swap n m g : sum n (fun i => sum m (fun j => g i j)) = sum m (fun j => sum n (fun i => g i j)).
Proof.
  induction n as [|n IH]; cbn; [now rewrite csum_zero|]. rewrite IH, <- csum_add. reflexivity.
Qed.
Lemma csum_pick n i (g : nat -> C) : (i < n)%nat -> sum n (fun k => if (k =? i)%nat then g k else 0) = g i.
Proof.
  induction n as [|n IH]; intros H; [lia|]. cbn. destruct (Nat.eqb_spec n i) as [->|Hne].
  - assert (sum i (fun k => if (k =? i)%nat then g k else 0) = 0) as ->; [|ring].
    etransitivity; [|exact (csum_zero i)]. apply csum_ext. intros k Hk. destruct (Nat.eqb_spec k i); [lia|reflexivity].
  - rewrite IH by lia. ring.
Qed.

Lemma e_zero : e 0%Qc = 1.
Proof. exact (exp_int K L 0). Qed.
Lemma e_period q z : e (q + Qc_of_Z z)%Qc = e q.
Proof. rewrite (exp_add K L), (exp_int K L). ring. Qed.
Lemma e_congr a b n : (0 < n)%nat -> (a - b) mod Z.of_nat n = 0%Z -> e (ratio a n) = e (ratio b n).
Proof.
  intros Hn H. apply Z.mod_divide in H; [|lia]. destruct H as [q Hq].
  replace a with (b + q * Z.of_nat n)%Z by lia. rewrite ratio_add, ratio_mul by assumption. apply e_period.
Qed.

(* a set of n frequencies, one of every residue class *)
Definition residues (n : nat) (kap : nat -> Z) : Prop :=
  exists a, forall k, (k < n)%nat -> (kap k - (a + Z.of_nat k)) mod Z.of_nat n = 0%Z.

Lemma orth n kap t : (0 < n)%nat -> residues n kap ->
  sum n (fun k => e (ratio (kap k * t) n)) = if (t mod Z.of_nat n =? 0)%Z then sum n (fun _ => 1) else 0.
Proof.
  intros Hn [a Ha].
  transitivity (sum n (fun k => e (ratio (a * t) n) * e (ratio (Z.of_nat k * t) n))).
  { apply csum_ext. intros k Hk. rewrite <- (exp_add K L), <- ratio_add by assumption. apply e_congr; [assumption|].
    specialize (Ha k Hk). apply Z.mod_divide in Ha; [|lia]. destruct Ha as [q Hq].
    apply Z.mod_divide; [lia|]. exists (q * t)%Z.
    replace (kap k) with (q * Z.of_nat n + (a + Z.of_nat k))%Z by lia. ring. }
  rewrite csum_mul_l. destruct (Z.eqb_spec (t mod Z.of_nat n) 0) as [Ht|Ht].
  - apply Z.mod_divide in Ht; [|lia]. destruct Ht as [q ->].
    replace (a * (q * Z.of_nat n))%Z with (a * q * Z.of_nat n)%Z by ring. rewrite ratio_mul, (exp_int K L) by assumption.
    rewrite (csum_ext n _ (fun _ => 1)); [ring|].
    intros k Hk. replace (Z.of_nat k * (q * Z.of_nat n))%Z with (Z.of_nat k * q * Z.of_nat n)%Z by ring.
    rewrite ratio_mul by assumption. apply (exp_int K L).
  - unfold ratio. rewrite (exp_orth K L) by assumption. ring.
Qed.

(* the spectrum of f at the frequencies kap, with f starting at position x0 *)
Definition spectrum (n : nat) (kap : nat -> Z) (x0 : Z) (f : nat -> C) (k : nat) : C :=
  sum n (fun j => f j * e (- ratio (kap k * (x0 + Z.of_nat j)) n)%Qc).

Lemma inversion n kap x0 f m : (0 < n)%nat -> residues n kap ->
  sum n (fun k => e (ratio (kap k * m) n) * spectrum n kap x0 f k)
  = sum n (fun _ => 1) * f (Z.to_nat ((m - x0) mod Z.of_nat n)).
Proof.
  intros Hn Hr. unfold spectrum.
  transitivity (sum n (fun j => f j * sum n (fun k => e (ratio (kap k * (m - (x0 + Z.of_nat j))) n)))).
  - transitivity (sum n (fun k => sum n (fun j => f j * e (ratio (kap k * (m - (x0 + Z.of_nat j))) n)))).
    + apply csum_ext. intros k Hk. rewrite <- csum_mul_l. apply csum_ext. intros j Hj.
      replace (kap k * (m - (x0 + Z.of_nat j)))%Z with (kap k * m + - (kap k * (x0 + Z.of_nat j)))%Z by ring.
      rewrite ratio_add, ratio_opp, (exp_add K L) by assumption. ring.
    + rewrite csum_swap. apply csum_ext. intros j Hj. apply csum_mul_l.
  - set (i := Z.to_nat ((m - x0) mod Z.of_nat n)).
    assert (0 <= (m - x0) mod Z.of_nat n < Z.of_nat n)%Z as Hb by (apply Z.mod_pos_bound; lia).
    assert (i < n)%nat as Hi by lia.
    transitivity (sum n (fun j => if (j =? i)%nat then f j * sum n (fun _ => 1) else 0)).
    + apply csum_ext. intros j Hj. rewrite (orth n kap) by assumption.
      assert ((m - (x0 + Z.of_nat j)) mod Z.of_nat n =? 0 = (j =? i)%nat)%Z as ->; [|destruct (j =? i)%nat; ring].
      destruct (Nat.eqb_spec j i) as [E|E].
      * apply Z.eqb_eq. apply Z.mod_divide; [lia|]. exists ((m - x0) / Z.of_nat n)%Z.
        assert (Hd := Z.div_mod (m - x0) (Z.of_nat n) ltac:(lia)). lia.
      * apply Z.eqb_neq. intros H. apply E. apply Nat2Z.inj. unfold i. rewrite Z2Nat.id by lia.
        apply Z.mod_divide in H; [|lia]. destruct H as [q Hq].
        replace (m - x0)%Z with (Z.of_nat j + q * Z.of_nat n)%Z by lia. rewrite Z.mod_add by lia.
        rewrite Z.mod_small; lia.
    + rewrite (csum_pick n i) by assumption. ring.
Qed.

Lemma e_residue kap n k m : (0 < n)%nat -> (kap - Z.of_nat k) mod Z.of_nat n = 0%Z ->
  e (ratio (kap * m) n) = e (ratio (Z.of_nat k * m) n).
Proof.
  intros Hn H. apply e_congr; [assumption|]. apply Z.mod_divide in H; [|lia]. destruct H as [q Hq].
  apply Z.mod_divide; [lia|]. exists (q * m)%Z. replace kap with (q * Z.of_nat n + Z.of_nat k)%Z by lia. ring.
Qed.
Lemma cinv_nat n x : (0 < n)%nat -> (sum n (fun _ => 1) * x) * cinv K L n = x.
Proof. intros H. transitivity (x * (sum n (fun _ => 1) * cinv K L n)); [ring|]. rewrite (inv_nat K L) by assumption. ring. Qed.

(* ---- one dimension ---- *)
Lemma nth_skipn' {A} s (f : list A) i d : nth i (skipn s f) d = nth (s + i) f d.
Proof. revert f. induction s as [|s IH]; intros f; [reflexivity|]. destruct f; [now destruct i|]. apply IH. Qed.
Lemma nth_firstn' {A} s (f : list A) i d : (i < s)%nat -> nth i (firstn s f) d = nth i f d.
Proof. revert f i. induction s as [|s IH]; intros f i H; [lia|]. destruct f; [reflexivity|]. destruct i; [reflexivity|]. cbn. apply IH. lia. Qed.

Definition kap (centered : bool) (n k : nat) : Z :=
  if centered then (lowest Numpy (Z.of_nat n) + Z.of_nat k)%Z else freq_index Numpy n k.
Lemma kap_residues cen n : residues n (kap cen n).
Proof.
  destruct cen; cbn [kap].
  - exists (lowest Numpy (Z.of_nat n)). intros k Hk. unfold kap. rewrite Z.sub_diag. apply Z.mod_0_l. lia.
  - exists 0%Z. intros k Hk. rewrite Z.add_0_l. now apply freq_index_spec.
Qed.
Lemma kap_axis mem cen n d : fftfreq mem (Z.of_nat n) d cen Numpy = Ok (map (fun k => freq_of n d (kap cen n k)) (seq 0 n)).
Proof. destruct cen; [apply fftfreq_centered|apply fftfreq_plain]. Qed.

Lemma nth_map_seq' {A} (g : nat -> A) n i d : (i < n)%nat -> nth i (map g (seq 0 n)) d = g i.
Proof.
  intros H. rewrite nth_indep with (d' := g 0%nat) by now rewrite map_length, seq_length.
  rewrite map_nth, seq_nth by assumption. reflexivity.
Qed.
Lemma qnth_freq n d g k : (k < n)%nat -> qnth (map (fun k => freq_of n d (g k)) (seq 0 n)) k = freq_of n d (g k).
Proof. intros H. unfold qnth. now rewrite nth_map_seq'. Qed.
Lemma cnth_map n (g : nat -> C) k : (k < n)%nat -> cnth K (map g (seq 0 n)) k = g k.
Proof. intros H. unfold cnth. now rewrite nth_map_seq'. Qed.

Lemma realspace_ok N dx x0 x1 x : realspace N dx x0 x1 = Ok x ->
  (x0 <= last_x N x1)%Z /\ length x = Z.to_nat (last_x N x1 - x0 + 1) /\
  forall j, (j < length x)%nat -> qnth x j = (Qc_of_Z (x0 + Z.of_nat j) * dx)%Qc.
Proof.
  unfold realspace. fold (last_x N x1). destruct (Z.ltb_spec (last_x N x1) x0); [discriminate|].
  intros [= <-]. split; [assumption|]. split; [rewrite map_length, arange_length; f_equal; lia|].
  intros j Hj. rewrite map_length, arange_length in Hj. unfold qnth, arange.
  rewrite map_map, (nth_map_seq' (fun i => (Qc_of_Z (x0 + Z.of_nat i) * dx)%Qc)) by assumption. reflexivity.
Qed.
Lemma realspace_total N dx x0 x1 : (x0 <= last_x N x1)%Z -> exists x, realspace N dx x0 x1 = Ok x.
Proof. intros H. unfold realspace. fold (last_x N x1). destruct (Z.ltb_spec (last_x N x1) x0); [lia|]. eauto. Qed.

Lemma freq_x n dx k x : (0 < n)%nat -> dx <> 0%Qc -> (freq_of n dx k * (Qc_of_Z x * dx))%Qc = ratio (k * x) n.
Proof. intros Hn Hd. unfold freq_of, ratio. rewrite Qc_of_Z_mult. field. split; [now apply nat_Qc_ne|assumption]. Qed.

Definition nrm (norm : convention) (n : nat) (z : C) : C := if is_idl norm then cdiv K z n else z.
Definition nrm' (norm : convention) (n : nat) (z : C) : C := if is_idl norm then z else cdiv K z n.

Lemma list_map_seq {A B} (l : list A) (d : A) (g : A -> B) : map g l = map (fun i => g (nth i l d)) (seq 0 (length l)).
Proof.
  apply list_eq_nth_error. intros i. destruct (Nat.ltb_spec i (length l)) as [H|H].
  - rewrite nth_error_map_seq by assumption. rewrite nth_error_map, (nth_error_nth' _ d) by assumption. reflexivity.
  - etransitivity; [|symmetry]; apply nth_error_None; rewrite map_length, ?seq_length; lia.
Qed.

Lemma default_inv dx x0 x1 u : default_call dx x0 x1 u = true -> dx = 1%Qc /\ x0 = 0%Z /\ x1 = None /\ u = [].
Proof.
  unfold default_call. intros H. repeat (apply andb_true_iff in H as [H ?]).
  apply Qc_eqb_spec in H. apply Z.eqb_eq in H2. destruct x1; [discriminate|]. destruct u; [|discriminate]. auto.
Qed.

Lemma ratio_nat a b n : nat_ratio (a * b) n = ratio (Z.of_nat a * Z.of_nat b) n.
Proof. unfold nat_ratio, ratio. now rewrite Nat2Z.inj_mul. Qed.
Lemma e_neg_residue z n k m : (0 < n)%nat -> (z - Z.of_nat k) mod Z.of_nat n = 0%Z ->
  e (- ratio (z * m) n)%Qc = e (- ratio (Z.of_nat k * m) n)%Qc.
Proof.
  intros Hn H. rewrite <- !ratio_opp. rewrite <- !Z.mul_opp_r. now apply e_residue.
Qed.

Lemma nrm_back norm n z : (0 < n)%nat -> nrm' norm n (nrm norm n (sum n (fun _ => 1) * z)) = z.
Proof.
  intros Hn. unfold nrm, nrm'. destruct norm; cbn [is_idl]; rewrite (div_inv K L); now apply cinv_nat.
Qed.
Lemma nrm_sum norm n m (g h : nat -> C) : sum m (fun k => g k * nrm norm n (h k)) = nrm norm n (sum m (fun k => g k * h k)).
Proof.
  unfold nrm. destruct norm; cbn [is_idl]; [reflexivity|].
  rewrite (div_inv K L), <- csum_mul_r. apply csum_ext. intros k Hk. rewrite (div_inv K L). ring.
Qed.
Lemma list_self (f : list C) : map (fun i => cnth K f i) (seq 0 (length f)) = f.
Proof. unfold cnth. rewrite <- (list_map_seq f 0 (fun z => z)). apply map_id. Qed.

Section OneD.
Variable mem : nat -> Z.
Lemma forward f dx x0 x1 cen norm F : (0 < length f)%nat -> dx <> 0%Qc ->
  dft K mem f dx x0 x1 [] cen false norm = Ok F ->
  (last_x (length f) x1 - x0 + 1 = Z.of_nat (length f))%Z /\
  F = map (fun k => nrm norm (length f) (spectrum (length f) (kap cen (length f)) x0 (cnth K f) k)) (seq 0 (length f)).
Proof.
  intros Hn Hd. unfold dft. destruct (default_call dx x0 x1 [] && negb cen) eqn:E.
  - apply andb_true_iff in E as [E Ec]. apply default_inv in E as (-> & -> & -> & _). destruct cen; [discriminate|].
    unfold np_fft. destruct (Nat.eqb_spec (length f) 0); [lia|]. cbn [bind]. intros [= <-]. split; [cbn; lia|].
    assert (forall k, (k < length f)%nat -> csum K (length f) (fun j => cnth K f j * e (- nat_ratio (k * j) (length f))%Qc)
      = spectrum (length f) (kap false (length f)) 0 (cnth K f) k) as HH.
    { intros k Hk. apply csum_ext. intros j Hj. f_equal. rewrite ratio_nat, Z.add_0_l.
      symmetry. apply e_neg_residue; [assumption|]. now apply freq_index_spec. }
    unfold nrm. destruct norm; cbn [is_idl]; rewrite ?map_map; apply map_ext_in; intros k Hk; apply in_seq in Hk;
      rewrite HH by lia; reflexivity.
  - destruct (realspace (length f) dx x0 x1) as [x|] eqn:Ex; [|discriminate]. cbn [bind].
    rewrite kap_axis. cbn [bind]. destruct (realspace_ok _ _ _ _ _ Ex) as (H1 & H2 & H3).
    destruct (Nat.eqb_spec (length x) (length f)) as [El|]; [|discriminate]. cbn [negb bind]. intros [= <-].
    split; [lia|].
    assert (kernel_dot K (- (1)) (map (fun k => freq_of (length f) dx (kap cen (length f) k)) (seq 0 (length f))) x f
      = map (spectrum (length f) (kap cen (length f)) x0 (cnth K f)) (seq 0 (length f))) as ->.
    { unfold kernel_dot. rewrite map_length, seq_length. apply map_ext_in. intros k Hk. apply in_seq in Hk.
      rewrite El. apply csum_ext. intros j Hj. rewrite qnth_freq by lia. rewrite H3 by lia.
      rewrite freq_x by assumption. replace (- (1) * ratio (kap cen (length f) k * (x0 + Z.of_nat j)) (length f))%Qc
        with (- ratio (kap cen (length f) k * (x0 + Z.of_nat j)) (length f))%Qc by ring. ring. }
    rewrite map_length, seq_length. unfold nrm. destruct norm; cbn [is_idl xorb]; rewrite ?map_map; reflexivity.
Qed.

Lemma backward F dx x0 x1 cen norm : (0 < length F)%nat -> dx <> 0%Qc -> (x0 <= last_x (length F) x1)%Z ->
  dft K mem F dx x0 x1 [] cen true norm =
  Ok (map (fun i => nrm' norm (length F) (sum (length F) (fun k => e (ratio (kap cen (length F) k * (x0 + Z.of_nat i)) (length F)) * cnth K F k)))
    (seq 0 (Z.to_nat (last_x (length F) x1 - x0 + 1)))).
Proof.
  intros Hn Hd Hx. unfold dft. destruct (default_call dx x0 x1 [] && negb cen) eqn:E.
  - apply andb_true_iff in E as [E Ec]. apply default_inv in E as (-> & -> & -> & _). destruct cen; [discriminate|].
    unfold np_ifft. destruct (Nat.eqb_spec (length F) 0); [lia|]. cbn [bind last_x]. f_equal.
    replace (Z.to_nat (Z.of_nat (length F) - 1 - 0 + 1)) with (length F) by lia.
    assert (forall k, (k < length F)%nat -> csum K (length F) (fun j => cnth K F j * e (nat_ratio (k * j) (length F))%Qc)
      = sum (length F) (fun j => e (ratio (kap false (length F) j * (0 + Z.of_nat k)) (length F)) * cnth K F j)) as HH.
    { intros k Hk. apply csum_ext. intros j Hj. rewrite ratio_nat, Z.add_0_l.
      rewrite (e_residue (kap false (length F) j) (length F) j); [|assumption|now apply freq_index_spec].
      rewrite (Z.mul_comm (Z.of_nat k)). ring. }
    unfold nrm'. destruct norm; cbn [is_idl].
    + apply map_ext_in; intros k Hk; apply in_seq in Hk; rewrite HH by lia; reflexivity.
    + rewrite map_map. apply map_ext_in; intros k Hk; apply in_seq in Hk. rewrite HH by lia.
      rewrite (scale_nat K L), (div_inv K L).
      etransitivity; [|apply (cinv_nat (length F)); assumption]. ring.
  - destruct (realspace_total (length F) dx x0 x1 Hx) as [x Ex]. rewrite Ex. cbn [bind].
    rewrite kap_axis. cbn [bind]. destruct (realspace_ok _ _ _ _ _ Ex) as (H1 & H2 & H3).
    rewrite map_length, seq_length, Nat.eqb_refl. cbn [negb bind]. f_equal.
    assert (kernel_dot K 1 x (map (fun k => freq_of (length F) dx (kap cen (length F) k)) (seq 0 (length F))) F
      = map (fun i => sum (length F) (fun k => e (ratio (kap cen (length F) k * (x0 + Z.of_nat i)) (length F)) * cnth K F k))
        (seq 0 (Z.to_nat (last_x (length F) x1 - x0 + 1)))) as ->.
    { unfold kernel_dot. rewrite map_length, seq_length, H2. apply map_ext_in. intros i Hi. apply in_seq in Hi.
      apply csum_ext. intros k Hk. rewrite qnth_freq by lia. rewrite H3 by lia.
      rewrite <- (freq_x (length F) dx) by assumption. do 2 f_equal. ring. }
    unfold nrm'. destruct norm; cbn [is_idl xorb]; rewrite ?map_map; reflexivity.
Qed.

(* transform and back with the same arguments *)
Lemma roundtrip f dx x0 x1 cen norm F : (0 < length f)%nat -> dx <> 0%Qc ->
  dft K mem f dx x0 x1 [] cen false norm = Ok F -> dft K mem F dx x0 x1 [] cen true norm = Ok f.
Proof.
  intros Hn Hd HF. apply forward in HF as (Hx & HF); [|assumption|assumption].
  assert (length F = length f) as HL by (rewrite HF, map_length, seq_length; reflexivity).
  rewrite backward by (rewrite ?HL; try assumption; lia). f_equal. rewrite HL.
  replace (Z.to_nat (last_x (length f) x1 - x0 + 1)) with (length f) by lia.
  etransitivity; [|apply (list_self f)]. apply map_ext_in. intros i Hi. apply in_seq in Hi.
  transitivity (nrm' norm (length f) (nrm norm (length f) (sum (length f) (fun _ => 1) * cnth K f i)));
    [|now apply nrm_back].
  f_equal. rewrite <- (csum_ext (length f) (fun k => e (ratio (kap cen (length f) k * (x0 + Z.of_nat i)) (length f)) *
      nrm norm (length f) (spectrum (length f) (kap cen (length f)) x0 (cnth K f) k))).
  2:{ intros k Hk. f_equal. rewrite HF. now rewrite cnth_map. }
  rewrite nrm_sum, inversion by (assumption || apply kap_residues). do 3 f_equal.
  replace (x0 + Z.of_nat i - x0)%Z with (Z.of_nat i) by lia. rewrite Z.mod_small by lia. apply Nat2Z.id.
Qed.

(* the inverse at a range of positions, with frequencies for another sampling: wherever
   a position falls on a sample of f, that sample is returned *)
Lemma resampled f F d u dx x0 x1 cen norm g : (0 < length f)%nat -> d <> 0%Qc ->
  dft K mem f 1 0 None [] cen false norm = Ok F ->
  fftfreq mem (Z.of_nat (length f)) d cen Numpy = Ok u ->
  dft K mem F dx x0 (Some x1) u cen true norm = Ok g ->
  length g = Z.to_nat (x1 - x0 + 1) /\
  forall i m, (i < length g)%nat -> (Qc_of_Z (x0 + Z.of_nat i) * dx)%Qc = (Qc_of_Z m * d)%Qc ->
    nth_error g i = nth_error f (Z.to_nat (m mod Z.of_nat (length f))).
Proof.
  intros Hn Hd HF Hu Hg. apply forward in HF as (_ & HF); [|assumption|discriminate].
  assert (length F = length f) as HL by (rewrite HF, map_length, seq_length; reflexivity).
  rewrite kap_axis in Hu. injection Hu as Hu.
  assert (length u = length f) as HLu by (rewrite <- Hu, map_length, seq_length; reflexivity).
  unfold dft in Hg. assert (default_call dx x0 (Some x1) u = false) as E.
  { unfold default_call. now rewrite andb_false_r. }
  rewrite E in Hg. cbn [andb] in Hg.
  destruct (realspace (length F) dx x0 (Some x1)) as [x|] eqn:Ex; [|discriminate]. cbn [bind] in Hg.
  destruct (realspace_ok _ _ _ _ _ Ex) as (H1 & H2 & H3). cbn [last_x] in *.
  assert (match u with [] => fftfreq mem (Z.of_nat (length F)) dx cen Numpy | _ => Ok u end = Ok u) as Eu.
  { destruct u; [cbn in HLu; lia|reflexivity]. }
  rewrite Eu in Hg. cbn [bind] in Hg. rewrite HLu, HL, Nat.eqb_refl in Hg. cbn [negb bind] in Hg. injection Hg as Hg.
  assert (g = map (nrm' norm (length f)) (kernel_dot K 1 x u F)) as Hg'.
  { rewrite <- Hg. unfold nrm'. destruct norm; cbn; [reflexivity|]. symmetry; apply map_id. }
  assert (length g = length x) as HLg by (rewrite Hg', map_length; unfold kernel_dot; rewrite map_length, seq_length; reflexivity).
  split; [lia|]. intros i m Hi Hm.
  assert (0 <= m mod Z.of_nat (length f) < Z.of_nat (length f))%Z as Hb by (apply Z.mod_pos_bound; lia).
  rewrite (nth_error_nth' f 0) by lia. rewrite Hg'. unfold kernel_dot. rewrite map_map, nth_error_map_seq by lia. f_equal.
  rewrite HLu.
  transitivity (nrm' norm (length f) (nrm norm (length f) (sum (length f) (fun _ => 1) * cnth K f (Z.to_nat ((m - 0) mod Z.of_nat (length f))))));
    [|rewrite Z.sub_0_r; now apply nrm_back].
  f_equal. rewrite <- (inversion _ (kap cen (length f))) by (assumption || apply kap_residues).
  rewrite <- nrm_sum. apply csum_ext. intros k Hk. rewrite HF, cnth_map by assumption. f_equal.
  rewrite H3 by lia. rewrite Hm. rewrite <- Hu, qnth_freq by assumption.
  rewrite <- (freq_x (length f) d) by assumption. f_equal. ring.
Qed.

Lemma forward_total f dx x0 x1 cen norm : (0 < length f)%nat -> (last_x (length f) x1 - x0 + 1 = Z.of_nat (length f))%Z ->
  exists F, dft K mem f dx x0 x1 [] cen false norm = Ok F.
Proof.
  intros Hn Hx. unfold dft. destruct (default_call dx x0 x1 [] && negb cen).
  - unfold np_fft. destruct (Nat.eqb_spec (length f) 0); [lia|]. cbn [bind]. eauto.
  - destruct (realspace_total (length f) dx x0 x1) as [x Ex]; [lia|]. rewrite Ex. cbn [bind].
    rewrite kap_axis. cbn [bind]. destruct (realspace_ok _ _ _ _ _ Ex) as (H1 & H2 & H3).
    destruct (Nat.eqb_spec (length x) (length f)); [|lia]. cbn [negb bind]. eauto.
Qed.
Lemma roundtrip_total f dx x0 x1 cen norm : (0 < length f)%nat -> dx <> 0%Qc ->
  (match x1 with Some x1 => x1 - x0 + 1 = Z.of_nat (length f) | None => x0 = 0 end)%Z ->
  exists F, dft K mem f dx x0 x1 [] cen false norm = Ok F /\ length F = length f /\ dft K mem F dx x0 x1 [] cen true norm = Ok f.
Proof.
  intros Hn Hd Hx. destruct (forward_total f dx x0 x1 cen norm Hn) as [F HF].
  { destruct x1; cbn [last_x]; lia. }
  exists F. split; [assumption|]. split; [|now apply (roundtrip f dx x0 x1 cen norm)].
  apply forward in HF as (_ & ->); try assumption. now rewrite map_length, seq_length.
Qed.
Lemma paths_agree f inv norm : (0 < length f)%nat ->
  dft K mem f 1 0 (Some (Z.of_nat (length f) - 1)%Z) [] false inv norm = dft K mem f 1 0 None [] false inv norm.
Proof.
  intros Hn. destruct inv.
  - rewrite !backward by (assumption || discriminate || cbn; lia). reflexivity.
  - destruct (forward_total f 1 0 None false norm Hn) as [F HF]; [cbn; lia|].
    destruct (forward_total f 1 0 (Some (Z.of_nat (length f) - 1)%Z) false norm Hn) as [F' HF']; [cbn; lia|].
    rewrite HF, HF'. apply forward in HF as (_ & ->); [|assumption|discriminate].
    apply forward in HF' as (_ & ->); [|assumption|discriminate]. reflexivity.
Qed.

(* linearity *)
Definition lincomb (a : C) (f : list C) (b : C) (g : list C) : list C :=
  map (fun i => a * cnth K f i + b * cnth K g i) (seq 0 (length f)).
Lemma lincomb_length a f b g : length (lincomb a f b g) = length f.
Proof. unfold lincomb. now rewrite map_length, seq_length. Qed.
Lemma lincomb_nth a f b g i : (i < length f)%nat -> cnth K (lincomb a f b g) i = a * cnth K f i + b * cnth K g i.
Proof. intros H. unfold lincomb. now rewrite cnth_map. Qed.
Lemma lincomb_seq a b n (h h' : nat -> C) :
  lincomb a (map h (seq 0 n)) b (map h' (seq 0 n)) = map (fun i => a * h i + b * h' i) (seq 0 n).
Proof.
  unfold lincomb. rewrite map_length, seq_length. apply map_ext_in. intros i Hi. apply in_seq in Hi.
  rewrite !cnth_map by lia. reflexivity.
Qed.
Lemma lincomb_map a b (f g : list C) (h : C -> C) : length f = length g ->
  (forall x y, h (a * x + b * y) = a * h x + b * h y) -> lincomb a (map h f) b (map h g) = map h (lincomb a f b g).
Proof.
  intros HL H. unfold lincomb. rewrite map_map, map_length. apply map_ext_in. intros i Hi. apply in_seq in Hi.
  rewrite H. unfold cnth. rewrite !(nth_indep _ 0 (h 0)) by (rewrite map_length; lia). rewrite !map_nth. reflexivity.
Qed.
Lemma csum_lin n a b g h (w : nat -> C) :
  sum n (fun j => (a * g j + b * h j) * w j) = a * sum n (fun j => g j * w j) + b * sum n (fun j => h j * w j).
Proof.
  rewrite <- !csum_mul_l, <- csum_add. apply csum_ext. intros; ring.
Qed.
Lemma kernel_lin sign x u a f b g : length u = length f -> length g = length f ->
  kernel_dot K sign x u (lincomb a f b g) = lincomb a (kernel_dot K sign x u f) b (kernel_dot K sign x u g).
Proof.
  intros H1 H2. unfold kernel_dot. rewrite lincomb_seq. apply map_ext. intros i. rewrite H1.
  etransitivity; [apply csum_ext|].
  { intros j Hj. rewrite lincomb_nth by assumption. rewrite (Rmul_comm (cring K L)). reflexivity. }
  rewrite csum_lin. f_equal; f_equal; apply csum_ext; intros; ring.
Qed.
Lemma kernel_length sign x u f : length (kernel_dot K sign x u f) = length x.
Proof. unfold kernel_dot. now rewrite map_length, seq_length. Qed.
Lemma div_lin n a b x y : cdiv K (a * x + b * y) n = a * cdiv K x n + b * cdiv K y n.
Proof. rewrite !(div_inv K L). ring. Qed.
Lemma scale_lin n a b x y : cscale K n (a * x + b * y) = a * cscale K n x + b * cscale K n y.
Proof. rewrite !(scale_nat K L). ring. Qed.
Lemma fft_lin a f b g F G : length g = length f -> np_fft K f = Ok F -> np_fft K g = Ok G ->
  np_fft K (lincomb a f b g) = Ok (lincomb a F b G) /\ length F = length f /\ length G = length f.
Proof.
  intros HL. unfold np_fft. rewrite HL, lincomb_length. destruct (length f =? 0)%nat; [discriminate|].
  intros [= <-] [= <-]. rewrite lincomb_seq, !map_length, !seq_length. split; [|auto].
  f_equal. apply map_ext. intros k. rewrite <- csum_lin. apply csum_ext. intros j Hj. now rewrite lincomb_nth.
Qed.
Lemma ifft_lin a f b g F G : length g = length f -> np_ifft K f = Ok F -> np_ifft K g = Ok G ->
  np_ifft K (lincomb a f b g) = Ok (lincomb a F b G) /\ length F = length f /\ length G = length f.
Proof.
  intros HL. unfold np_ifft. rewrite HL, lincomb_length. destruct (length f =? 0)%nat; [discriminate|].
  intros [= <-] [= <-]. rewrite lincomb_seq, !map_length, !seq_length. split; [|auto].
  f_equal. apply map_ext. intros k. rewrite <- div_lin, <- csum_lin. f_equal. apply csum_ext. intros j Hj. now rewrite lincomb_nth.
Qed.
Lemma dft_linear a f b g dx x0 x1 u cen inv norm F G : length g = length f ->
  dft K mem f dx x0 x1 u cen inv norm = Ok F -> dft K mem g dx x0 x1 u cen inv norm = Ok G ->
  dft K mem (lincomb a f b g) dx x0 x1 u cen inv norm = Ok (lincomb a F b G).
Proof.
  intros HL. unfold dft. rewrite !lincomb_length. rewrite HL.
  destruct (default_call dx x0 x1 u && negb cen).
  - destruct inv.
    + destruct (np_ifft K f) as [F0|] eqn:EF; [|discriminate]. destruct (np_ifft K g) as [G0|] eqn:EG; [|discriminate].
      destruct (ifft_lin a f b g F0 G0 HL EF EG) as (E & E1 & E2). rewrite E. cbn [bind]. intros [= <-] [= <-].
      destruct (is_idl norm); [|reflexivity]. rewrite <- lincomb_map; [reflexivity|congruence|apply scale_lin].
    + destruct (np_fft K f) as [F0|] eqn:EF; [|discriminate]. destruct (np_fft K g) as [G0|] eqn:EG; [|discriminate].
      destruct (fft_lin a f b g F0 G0 HL EF EG) as (E & E1 & E2). rewrite E. cbn [bind]. intros [= <-] [= <-].
      destruct (is_idl norm); [|reflexivity]. rewrite <- lincomb_map; [reflexivity|congruence|apply div_lin].
  - destruct (realspace (length f) dx x0 x1) as [x|]; [|discriminate]. cbn [bind].
    destruct (match u with [] => _ | _ => _ end) as [u'|]; [|discriminate]. cbn [bind].
    destruct inv.
    + destruct (Nat.eqb_spec (length u') (length f)); [|discriminate]. cbn [negb bind]. intros [= <-] [= <-].
      rewrite kernel_lin by assumption. destruct (xorb (is_idl norm) true); [|reflexivity].
      rewrite <- lincomb_map; [reflexivity|now rewrite !kernel_length|apply div_lin].
    + destruct (Nat.eqb_spec (length x) (length f)); [|discriminate]. cbn [negb bind]. intros [= <-] [= <-].
      rewrite kernel_lin by assumption. destruct (xorb (is_idl norm) false); [|reflexivity].
      rewrite <- lincomb_map; [reflexivity|now rewrite !kernel_length|apply div_lin].
Qed.

(* rotation *)
Lemma csum_first n g : sum (S n) g = g 0%nat + sum n (fun j => g (S j)).
Proof. induction n as [|n IH]; [cbn; ring|]. change (sum (S (S n)) g) with (sum (S n) g + g (S n)). rewrite IH. cbn. ring. Qed.
Lemma csum_rot1 n g : sum n (fun j => g (S j mod n)%nat) = sum n g.
Proof.
  destruct n as [|n]; [reflexivity|]. rewrite (csum_first n g). cbn [csum]. rewrite Nat.mod_same by lia.
  rewrite (csum_ext n _ (fun j => g (S j))); [ring|]. intros j Hj. rewrite Nat.mod_small by lia. reflexivity.
Qed.
Lemma csum_rot n s g : sum n (fun j => g ((j + s) mod n)%nat) = sum n g.
Proof.
  induction s as [|s IH].
  - apply csum_ext. intros j Hj. rewrite Nat.add_0_r, Nat.mod_small by lia. reflexivity.
  - rewrite <- IH. rewrite <- (csum_rot1 n (fun j => g ((j + s) mod n)%nat)). apply csum_ext. intros j Hj.
    f_equal. rewrite Nat.add_mod_idemp_l by lia. f_equal. lia.
Qed.
Lemma rot_nth (f : list C) s i : (s <= length f)%nat -> (i < length f)%nat ->
  cnth K (skipn s f ++ firstn s f) i = cnth K f ((i + s) mod length f)%nat.
Proof.
  intros Hs Hi. unfold cnth. destruct (Nat.ltb_spec i (length f - s)) as [H|H].
  - rewrite app_nth1 by (rewrite skipn_length; lia). rewrite Nat.mod_small by lia.
    rewrite nth_skipn'. f_equal. lia.
  - rewrite app_nth2 by (rewrite skipn_length; lia). rewrite skipn_length.
    rewrite nth_firstn' by lia. f_equal.
    replace (i + s)%nat with (i - (length f - s) + 1 * length f)%nat by lia. rewrite Nat.mod_add by lia.
    rewrite Nat.mod_small by lia. lia.
Qed.
Lemma rotated f s norm F F' : (s <= length f)%nat ->
  dft K mem f 1 0 None [] false false norm = Ok F ->
  dft K mem (skipn s f ++ firstn s f) 1 0 None [] false false norm = Ok F' ->
  length F' = length F /\
  forall k, (k < length F)%nat -> cnth K F' k = e (nat_ratio (k * s) (length f)) * cnth K F k.
Proof.
  intros Hs HF HF'. assert (length (skipn s f ++ firstn s f) = length f) as HL.
  { rewrite app_length, skipn_length, firstn_length. lia. }
  unfold dft in HF, HF'. cbn in HF, HF'. unfold np_fft in HF, HF'. rewrite HL in HF'.
  destruct (Nat.eqb_spec (length f) 0) as [|Hn]; [discriminate|]. cbn [bind] in *.
  assert (forall k, (k < length f)%nat -> sum (length f) (fun j => cnth K (skipn s f ++ firstn s f) j * e (- nat_ratio (k * j) (length f))%Qc)
    = e (nat_ratio (k * s) (length f)) * sum (length f) (fun j => cnth K f j * e (- nat_ratio (k * j) (length f))%Qc)) as HH.
  { intros k Hk. rewrite <- (csum_rot (length f) s (fun j => cnth K f j * e (- nat_ratio (k * j) (length f))%Qc)).
    rewrite <- csum_mul_l. apply csum_ext. intros j Hj. rewrite rot_nth by assumption.
    set (m := ((j + s) mod length f)%nat).
    assert (e (- nat_ratio (k * j) (length f))%Qc = e (nat_ratio (k * s) (length f)) * e (- nat_ratio (k * m) (length f))%Qc) as ->; [|ring].
    rewrite !ratio_nat, <- !ratio_opp, <- (exp_add K L), <- ratio_add by lia.
    apply e_congr; [lia|]. apply Z.mod_divide; [lia|].
    assert (Hm := Nat.div_mod (j + s) (length f) Hn). fold m in Hm.
    exists (- Z.of_nat k * Z.of_nat ((j + s) / length f))%Z. nia. }
  destruct norm; cbn [is_idl] in *; injection HF as <-; injection HF' as <-; rewrite ?map_map, !map_length, !seq_length; split; auto;
    intros k Hk; rewrite !cnth_map by assumption; rewrite HH by assumption; [reflexivity|].
  rewrite !(div_inv K L). ring.
Qed.
End OneD.

(* ---- two dimensions ---- *)
Section TwoD.
Variable mem : nat -> Z.

Definition spectrum2 (r c : nat) (kr kc : nat -> Z) (y0 x0 : Z) (f : nat -> nat -> C) (i j : nat) : C :=
  spectrum c kc x0 (fun x => spectrum r kr y0 (fun y => f y x) i) j.
Lemma inversion2 r c kr kc y0 x0 f my mx : (0 < r)%nat -> (0 < c)%nat -> residues r kr -> residues c kc ->
  sum c (fun j => sum r (fun i => e (ratio (kr i * my) r) * spectrum2 r c kr kc y0 x0 f i j) * e (ratio (kc j * mx) c))
  = (sum r (fun _ => 1) * sum c (fun _ => 1)) * f (Z.to_nat ((my - y0) mod Z.of_nat r)) (Z.to_nat ((mx - x0) mod Z.of_nat c)).
Proof.
  intros Hr Hc Rr Rc.
  transitivity (sum c (fun j => e (ratio (kc j * mx) c) *
    (sum r (fun _ => 1) * spectrum c kc x0 (fun x => f (Z.to_nat ((my - y0) mod Z.of_nat r)) x) j))).
  - apply csum_ext. intros j Hj. rewrite (Rmul_comm (cring K L)). f_equal. unfold spectrum2, spectrum at 1.
    transitivity (sum c (fun x => sum r (fun i => e (ratio (kr i * my) r) * spectrum r kr y0 (fun y => f y x) i) *
      e (- ratio (kc j * (x0 + Z.of_nat x)) c)%Qc)).
    + transitivity (sum r (fun i => sum c (fun x => e (ratio (kr i * my) r) * spectrum r kr y0 (fun y => f y x) i *
        e (- ratio (kc j * (x0 + Z.of_nat x)) c)%Qc))).
      * apply csum_ext. intros i Hi. rewrite <- csum_mul_l. apply csum_ext. intros x Hx. ring.
      * rewrite csum_swap. apply csum_ext. intros x Hx. apply csum_mul_r.
    + unfold spectrum at 2. rewrite <- csum_mul_l. apply csum_ext. intros x Hx. rewrite inversion by assumption. ring.
  - transitivity (sum r (fun _ => 1) * sum c (fun j => e (ratio (kc j * mx) c) *
      spectrum c kc x0 (fun x => f (Z.to_nat ((my - y0) mod Z.of_nat r)) x) j)).
    + rewrite <- csum_mul_l. apply csum_ext. intros j Hj. ring.
    + rewrite inversion by assumption. ring.
Qed.
Lemma cnat_mul a b : sum (a * b) (fun _ => 1) = sum a (fun _ => 1) * sum b (fun _ => 1).
Proof.
  assert (forall m n, sum (m + n) (fun _ => 1) = sum m (fun _ => 1) + sum n (fun _ => 1)) as Hadd.
  { intros m n. induction n as [|n IH]; [rewrite Nat.add_0_r; cbn; ring|]. rewrite Nat.add_succ_r. cbn. rewrite IH. ring. }
  induction a as [|a IH]; [cbn; ring|]. cbn [Nat.mul]. rewrite Hadd, IH. cbn. ring.
Qed.
Lemma nrm_back2 norm r c z : (0 < r)%nat -> (0 < c)%nat ->
  nrm' norm (r * c) (nrm norm (r * c) ((sum r (fun _ => 1) * sum c (fun _ => 1)) * z)) = z.
Proof. intros Hr Hc. rewrite <- cnat_mul. apply nrm_back. nia. Qed.

Lemma forward2 f r c dx x0 x1 dy y0 y1 cen norm F : shp f = [r; c] -> (0 < r)%nat -> (0 < c)%nat ->
  dx <> 0%Qc -> dy <> 0%Qc ->
  dft2 K mem f dx x0 x1 [] dy y0 y1 [] cen false norm = Ok F ->
  (last_x c x1 - x0 + 1 = Z.of_nat c)%Z /\ (last_x r y1 - y0 + 1 = Z.of_nat r)%Z /\
  shp F = [r; c] /\ forall i j, (i < r)%nat -> (j < c)%nat ->
    elt F [i; j] = nrm norm (r * c) (spectrum2 r c (kap cen r) (kap cen c) y0 x0 (fun y x => elt f [y; x]) i j).
Proof.
  intros Hs Hr Hc Hdx Hdy.
  assert (rows K f = r) as Er by (unfold rows; now rewrite Hs). assert (cols K f = c) as Ec by (unfold cols; now rewrite Hs).
  unfold dft2. rewrite Er, Ec. destruct (default_call dx x0 x1 [] && default_call dy y0 y1 [] && negb cen) eqn:E.
  - apply andb_true_iff in E as [E E3]. apply andb_true_iff in E as [E1 E2].
    apply default_inv in E1 as (-> & -> & -> & _). apply default_inv in E2 as (-> & -> & -> & _).
    destruct cen; [discriminate|]. unfold np_fft2. rewrite Er, Ec.
    destruct (Nat.eqb_spec r 0); [lia|]. destruct (Nat.eqb_spec c 0); [lia|]. cbn [orb bind]. intros HF.
    split; [cbn; lia|]. split; [cbn; lia|].
    assert (forall i j, (i < r)%nat -> (j < c)%nat -> np_fft2_sum K (- (1)) f i j
      = spectrum2 r c (kap false r) (kap false c) 0 0 (fun y x => elt f [y; x]) i j) as HH.
    { intros i j Hi Hj. unfold np_fft2_sum. rewrite Er, Ec. rewrite csum_swap. unfold spectrum2, spectrum at 1.
      apply csum_ext. intros x Hx. unfold spectrum. rewrite <- csum_mul_r. apply csum_ext. intros y Hy.
      rewrite !Z.add_0_l. rewrite (e_neg_residue (kap false r i) r i) by (assumption || now apply freq_index_spec).
      rewrite (e_neg_residue (kap false c j) c j) by (assumption || now apply freq_index_spec).
      rewrite !ratio_nat.
      replace (- (1) * (ratio (Z.of_nat i * Z.of_nat y) r + ratio (Z.of_nat j * Z.of_nat x) c))%Qc
        with (- ratio (Z.of_nat i * Z.of_nat y) r + - ratio (Z.of_nat j * Z.of_nat x) c)%Qc by ring.
      rewrite (exp_add K L). ring. }
    injection HF as <-. destruct norm; cbn [is_idl map_arr shp elt matrix nrm]; (split; [reflexivity|]); intros i j Hi Hj;
      rewrite HH by assumption; reflexivity.
  - destruct (realspace c dx x0 x1) as [x|] eqn:Ex; [|discriminate]. cbn [bind].
    destruct (realspace r dy y0 y1) as [y|] eqn:Ey; [|discriminate]. cbn [bind].
    rewrite !kap_axis. cbn [bind].
    destruct (realspace_ok _ _ _ _ _ Ex) as (H1 & H2 & H3). destruct (realspace_ok _ _ _ _ _ Ey) as (G1 & G2 & G3).
    destruct (Nat.eqb_spec (length x) c) as [Lx|]; [|discriminate]. destruct (Nat.eqb_spec (length y) r) as [Ly|]; [|discriminate].
    cbn [negb orb bind]. unfold mdot, kernel. cbn [rows cols matrix shp nth]. rewrite Er, Ec, !map_length, !seq_length, Lx, Ly, !Nat.eqb_refl.
    cbn [negb bind rows cols matrix shp nth]. rewrite !Nat.eqb_refl. cbn [negb bind rows cols matrix shp nth]. intros HF.
    split; [lia|]. split; [lia|].
    match type of HF with Ok (if _ then map_arr _ _ ?A else _) = _ => set (a := A) in HF end.
    assert (forall i j, (i < r)%nat -> (j < c)%nat -> elt a [i; j]
      = spectrum2 r c (kap cen r) (kap cen c) y0 x0 (fun y x => elt f [y; x]) i j) as HH.
    { intros i j Hi Hj. unfold a. cbn [elt matrix]. unfold spectrum2, spectrum at 1. apply csum_ext. intros k Hk.
      unfold spectrum. rewrite (Rmul_comm (cring K L)), (Rmul_comm (cring K L) (csum K r _)). f_equal.
      - rewrite H3 by lia. rewrite qnth_freq by assumption. f_equal.
        rewrite <- (freq_x c dx) by assumption. ring.
      - apply csum_ext. intros l Hl. rewrite (Rmul_comm (cring K L)). f_equal.
        rewrite G3 by lia. rewrite qnth_freq by assumption. f_equal. rewrite <- (freq_x r dy) by assumption. ring. }
    injection HF as <-. rewrite (Nat.mul_comm c r). unfold nrm.
    destruct norm; cbn [is_idl xorb map_arr shp elt]; (split; [reflexivity|]); intros i j Hi Hj;
      rewrite HH by assumption; reflexivity.
Qed.

(* the inverse, with the frequencies of spacing d per axis evaluated at positions
   that are multiples of the spacing *)
Lemma backward2 F r c dx x0 x1 u dx' dy y0 y1 v dy' cen norm : shp F = [r; c] -> (0 < r)%nat -> (0 < c)%nat ->
  dx' <> 0%Qc -> dy' <> 0%Qc ->
  (x0 <= last_x c x1)%Z -> (y0 <= last_x r y1)%Z ->
  (u = [] /\ dx' = dx \/ fftfreq mem (Z.of_nat c) dx' cen Numpy = Ok u) ->
  (v = [] /\ dy' = dy \/ fftfreq mem (Z.of_nat r) dy' cen Numpy = Ok v) ->
  exists g, dft2 K mem F dx x0 x1 u dy y0 y1 v cen true norm = Ok g /\
    shp g = [Z.to_nat (last_x r y1 - y0 + 1); Z.to_nat (last_x c x1 - x0 + 1)] /\
    forall i j my mx, (i < Z.to_nat (last_x r y1 - y0 + 1))%nat -> (j < Z.to_nat (last_x c x1 - x0 + 1))%nat ->
      (Qc_of_Z (y0 + Z.of_nat i) * dy = Qc_of_Z my * dy')%Qc -> (Qc_of_Z (x0 + Z.of_nat j) * dx = Qc_of_Z mx * dx')%Qc ->
      elt g [i; j] = nrm' norm (r * c) (sum c (fun l => sum r (fun k => e (ratio (kap cen r k * my) r) * elt F [k; l]) * e (ratio (kap cen c l * mx) c))).
Proof.
  intros Hs Hr Hc Hdx Hdy Hx Hy Hu Hv.
  assert (rows K F = r) as Er by (unfold rows; now rewrite Hs). assert (cols K F = c) as Ec by (unfold cols; now rewrite Hs).
  unfold dft2. rewrite Er, Ec. destruct (default_call dx x0 x1 u && default_call dy y0 y1 v && negb cen) eqn:E.
  - apply andb_true_iff in E as [E E3]. apply andb_true_iff in E as [E1 E2].
    apply default_inv in E1 as (-> & -> & -> & ->). apply default_inv in E2 as (-> & -> & -> & ->).
    destruct cen; [discriminate|].
    destruct Hu as [[_ Hu]|Hu]; [subst dx'|rewrite kap_axis in Hu; destruct c; [lia|discriminate]].
    destruct Hv as [[_ Hv]|Hv]; [subst dy'|rewrite kap_axis in Hv; destruct r; [lia|discriminate]].
    unfold np_ifft2. rewrite Er, Ec.
    destruct (Nat.eqb_spec r 0); [lia|]. destruct (Nat.eqb_spec c 0); [lia|]. cbn [orb bind].
    eexists. split; [reflexivity|]. cbn [last_x].
    replace (Z.to_nat (Z.of_nat r - 1 - 0 + 1)) with r by lia. replace (Z.to_nat (Z.of_nat c - 1 - 0 + 1)) with c by lia.
    assert (forall i j, (i < r)%nat -> (j < c)%nat -> np_fft2_sum K 1 F i j
      = sum c (fun l => sum r (fun k => e (ratio (kap false r k * Z.of_nat i) r) * elt F [k; l]) * e (ratio (kap false c l * Z.of_nat j) c))) as HH.
    { intros i j Hi Hj. unfold np_fft2_sum. rewrite Er, Ec. rewrite csum_swap.
      apply csum_ext. intros x Hlx. rewrite <- csum_mul_r. apply csum_ext. intros y Hly.
      rewrite (e_residue (kap false r y) r y) by (assumption || now apply freq_index_spec).
      rewrite (e_residue (kap false c x) c x) by (assumption || now apply freq_index_spec).
      rewrite !ratio_nat, Qcmult_1_l. rewrite (exp_add K L).
      rewrite (Z.mul_comm (Z.of_nat i)), (Z.mul_comm (Z.of_nat j)). ring. }
    split; [destruct norm; reflexivity|].
    intros i j my mx Hi Hj Hmy Hmx.
    assert (my = Z.of_nat i) as ->. { rewrite !Qcmult_1_r in Hmy. apply Qc_of_Z_inj in Hmy. lia. }
    assert (mx = Z.of_nat j) as ->. { rewrite !Qcmult_1_r in Hmx. apply Qc_of_Z_inj in Hmx. lia. }
    unfold nrm'. destruct norm; cbn [is_idl map_arr shp elt matrix]; rewrite HH by assumption; [reflexivity|].
    rewrite (scale_nat K L), (div_inv K L).
    etransitivity; [|apply (cinv_nat (r * c)); nia]. ring.
  - destruct (realspace_total c dx x0 x1 Hx) as [x Ex]. rewrite Ex. cbn [bind].
    destruct (realspace_total r dy y0 y1 Hy) as [y Ey]. rewrite Ey. cbn [bind].
    destruct (realspace_ok _ _ _ _ _ Ex) as (H1 & H2 & H3). destruct (realspace_ok _ _ _ _ _ Ey) as (G1 & G2 & G3).
    assert (match u with [] => fftfreq mem (Z.of_nat c) dx cen Numpy | _ => Ok u end =
      Ok (map (fun k => freq_of c dx' (kap cen c k)) (seq 0 c))) as ->.
    { rewrite <- (kap_axis mem). destruct Hu as [[-> ->]|Hu]; [reflexivity|]. rewrite Hu. destruct u; [|reflexivity].
      rewrite kap_axis in Hu. destruct c; [lia|discriminate]. }
    assert (match v with [] => fftfreq mem (Z.of_nat r) dy cen Numpy | _ => Ok v end =
      Ok (map (fun k => freq_of r dy' (kap cen r k)) (seq 0 r))) as ->.
    { rewrite <- (kap_axis mem). destruct Hv as [[-> ->]|Hv]; [reflexivity|]. rewrite Hv. destruct v; [|reflexivity].
      rewrite kap_axis in Hv. destruct r; [lia|discriminate]. }
    cbn [bind]. rewrite !map_length, !seq_length, !Nat.eqb_refl. cbn [negb orb bind].
    unfold mdot, kernel. cbn [rows cols matrix shp nth]. rewrite Er, Ec, !map_length, !seq_length, !Nat.eqb_refl.
    cbn [negb bind rows cols matrix shp nth]. rewrite !Nat.eqb_refl. cbn [negb bind rows cols matrix shp nth].
    eexists. split; [reflexivity|]. rewrite <- H2, <- G2. split; [destruct norm; reflexivity|].
    intros i j my mx Hi Hj Hmy Hmx. rewrite (Nat.mul_comm c r). unfold nrm'.
    assert (forall z, elt (if xorb (is_idl norm) true then map_arr K (fun z => cdiv K z (r * c)) z else z) [i; j]
      = if is_idl norm then elt z [i; j] else cdiv K (elt z [i; j]) (r * c)) as ->.
    { intros z. destruct norm; reflexivity. }
    cbn [elt matrix].
    match goal with |- (if _ then ?A else _) = (if _ then ?B else _) => assert (A = B) as -> end; [|reflexivity].
    apply csum_ext. intros k Hk. f_equal.
    + apply csum_ext. intros l Hl. f_equal. rewrite G3 by lia. rewrite qnth_freq by assumption. f_equal.
      rewrite <- (freq_x r dy') by assumption. rewrite Hmy. ring.
    + rewrite H3 by lia. rewrite qnth_freq by assumption. f_equal.
      rewrite <- (freq_x c dx') by assumption. rewrite Hmx. ring.
Qed.

Lemma inside2 r c o : inside [r; c] o -> exists i j, o = [i; j] /\ (i < r)%nat /\ (j < c)%nat.
Proof.
  intros H. inversion H as [|? i ? o' Hi Ho]; subst. inversion Ho as [|? j ? o'' Hj Ho']; subst. inversion Ho'; subst. eauto.
Qed.

Lemma forward2_total f r c dx x0 x1 dy y0 y1 cen norm : shp f = [r; c] -> (0 < r)%nat -> (0 < c)%nat ->
  (last_x c x1 - x0 + 1 = Z.of_nat c)%Z -> (last_x r y1 - y0 + 1 = Z.of_nat r)%Z ->
  exists F, dft2 K mem f dx x0 x1 [] dy y0 y1 [] cen false norm = Ok F.
Proof.
  intros Hs Hr Hc Hx Hy.
  assert (rows K f = r) as Er by (unfold rows; now rewrite Hs). assert (cols K f = c) as Ec by (unfold cols; now rewrite Hs).
  unfold dft2. rewrite Er, Ec. destruct (default_call dx x0 x1 [] && default_call dy y0 y1 [] && negb cen).
  - unfold np_fft2. rewrite Er, Ec. destruct (Nat.eqb_spec r 0); [lia|]. destruct (Nat.eqb_spec c 0); [lia|]. cbn [orb bind]. eauto.
  - destruct (realspace_total c dx x0 x1) as [x Ex]; [lia|]. rewrite Ex. cbn [bind].
    destruct (realspace_total r dy y0 y1) as [y Ey]; [lia|]. rewrite Ey. cbn [bind]. rewrite !kap_axis. cbn [bind].
    destruct (realspace_ok _ _ _ _ _ Ex) as (H1 & H2 & H3). destruct (realspace_ok _ _ _ _ _ Ey) as (G1 & G2 & G3).
    destruct (Nat.eqb_spec (length x) c) as [Lx|]; [|lia]. destruct (Nat.eqb_spec (length y) r) as [Ly|]; [|lia].
    cbn [negb orb bind]. unfold mdot, kernel. cbn [rows cols matrix shp nth]. rewrite Er, Ec, !map_length, !seq_length, Lx, Ly, !Nat.eqb_refl.
    cbn [negb bind rows cols matrix shp nth]. rewrite !Nat.eqb_refl. cbn [negb bind]. eauto.
Qed.

Lemma roundtrip2 f r c dx x0 x1 dy y0 y1 cen norm : shp f = [r; c] -> (0 < r)%nat -> (0 < c)%nat ->
  dx <> 0%Qc -> dy <> 0%Qc ->
  (last_x c x1 - x0 + 1 = Z.of_nat c)%Z -> (last_x r y1 - y0 + 1 = Z.of_nat r)%Z ->
  exists F g, dft2 K mem f dx x0 x1 [] dy y0 y1 [] cen false norm = Ok F /\ shp F = [r; c] /\
    dft2 K mem F dx x0 x1 [] dy y0 y1 [] cen true norm = Ok g /\ arr_eq g f.
Proof.
  intros Hs Hr Hc Hdx Hdy Hx Hy.
  destruct (forward2_total f r c dx x0 x1 dy y0 y1 cen norm Hs Hr Hc Hx Hy) as [F HF].
  destruct (forward2 f r c dx x0 x1 dy y0 y1 cen norm F Hs Hr Hc Hdx Hdy HF) as (_ & _ & HsF & HE).
  destruct (backward2 F r c dx x0 x1 [] dx dy y0 y1 [] dy cen norm HsF Hr Hc Hdx Hdy) as (g & Hg & Hsg & Hge); try lia; auto.
  exists F, g. split; [assumption|]. split; [assumption|]. split; [assumption|].
  assert (shp g = shp f) as Hsh. { rewrite Hsg, Hs. f_equal; [lia|f_equal; lia]. }
  split; [assumption|]. intros o Ho. rewrite Hsh, Hs in Ho. apply inside2 in Ho as (i & j & -> & Hi & Hj).
  rewrite (Hge i j (y0 + Z.of_nat i)%Z (x0 + Z.of_nat j)%Z) by (reflexivity || lia).
  etransitivity; [|apply (nrm_back2 norm r c); assumption]. f_equal.
  etransitivity; [apply csum_ext|].
  { intros l Hl. rewrite (csum_ext r _ (fun k => e (ratio (kap cen r k * (y0 + Z.of_nat i)) r) *
      nrm norm (r * c) (spectrum2 r c (kap cen r) (kap cen c) y0 x0 (fun y x => elt f [y; x]) k l))).
    2:{ intros k Hk. now rewrite HE. }
    rewrite nrm_sum, (Rmul_comm (cring K L)). reflexivity. }
  rewrite nrm_sum. f_equal. 
  etransitivity; [apply csum_ext; intros l Hl; apply (Rmul_comm (cring K L))|].
  rewrite inversion2 by (assumption || apply kap_residues). f_equal.
  replace (y0 + Z.of_nat i - y0)%Z with (Z.of_nat i) by lia. replace (x0 + Z.of_nat j - x0)%Z with (Z.of_nat j) by lia.
  rewrite !Z.mod_small by lia. now rewrite !Nat2Z.id.
Qed.

Lemma resampled2 f r c F dx x0 x1 u dx' dy y0 y1 v dy' cen norm : shp f = [r; c] -> (0 < r)%nat -> (0 < c)%nat ->
  dx' <> 0%Qc -> dy' <> 0%Qc -> (x0 <= x1)%Z -> (y0 <= y1)%Z ->
  dft2 K mem f 1 0 None [] 1 0 None [] cen false norm = Ok F ->
  fftfreq mem (Z.of_nat c) dx' cen Numpy = Ok u -> fftfreq mem (Z.of_nat r) dy' cen Numpy = Ok v ->
  exists g, dft2 K mem F dx x0 (Some x1) u dy y0 (Some y1) v cen true norm = Ok g /\
    shp g = [Z.to_nat (y1 - y0 + 1); Z.to_nat (x1 - x0 + 1)] /\
    forall i j my mx, inside (shp g) [i; j] ->
      (Qc_of_Z (y0 + Z.of_nat i) * dy = Qc_of_Z my * dy')%Qc -> (Qc_of_Z (x0 + Z.of_nat j) * dx = Qc_of_Z mx * dx')%Qc ->
      elt g [i; j] = elt f [Z.to_nat (my mod Z.of_nat r); Z.to_nat (mx mod Z.of_nat c)].
Proof.
  intros Hs Hr Hc Hdx Hdy Hx Hy HF Hu Hv.
  destruct (forward2 f r c 1 0 None 1 0 None cen norm F Hs Hr Hc ltac:(discriminate) ltac:(discriminate) HF) as (_ & _ & HsF & HE).
  destruct (backward2 F r c dx x0 (Some x1) u dx' dy y0 (Some y1) v dy' cen norm HsF Hr Hc Hdx Hdy) as (g & Hg & Hsg & Hge); auto.
  exists g. split; [assumption|]. split; [assumption|]. intros i j my mx Hin Hmy Hmx. rewrite Hsg in Hin.
  apply inside2 in Hin as (i' & j' & [= <- <-] & Hi & Hj).
  rewrite (Hge i j my mx) by assumption.
  etransitivity; [|apply (nrm_back2 norm r c); assumption]. f_equal.
  etransitivity; [apply csum_ext|].
  { intros l Hl. rewrite (csum_ext r _ (fun k => e (ratio (kap cen r k * my) r) *
      nrm norm (r * c) (spectrum2 r c (kap cen r) (kap cen c) 0 0 (fun y x => elt f [y; x]) k l))).
    2:{ intros k Hk. now rewrite HE. }
    rewrite nrm_sum, (Rmul_comm (cring K L)). reflexivity. }
  rewrite nrm_sum. f_equal. 
  etransitivity; [apply csum_ext; intros l Hl; apply (Rmul_comm (cring K L))|].
  rewrite inversion2 by (assumption || apply kap_residues). now rewrite !Z.sub_0_r.
Qed.
End TwoD.
End Generic.
