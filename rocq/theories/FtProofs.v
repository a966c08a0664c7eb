From Verif Require Import BaseProofs FtModel FtSpec.

Lemma arange_length a b : length (arange a b) = Z.to_nat (b - a).
Proof. unfold arange. now rewrite map_length, seq_length. Qed.
Lemma arange_nth a b i d : (i < Z.to_nat (b - a))%nat -> nth i (arange a b) d = a + Z.of_nat i.
Proof.
  intros H. unfold arange. rewrite nth_indep with (d' := (fun i => a + Z.of_nat i) 0%nat) by now rewrite map_length, seq_length.
  rewrite (map_nth (fun i => a + Z.of_nat i)). now rewrite seq_nth.
Qed.
Lemma empty_length mem n : length (np_empty mem n) = Z.to_nat n.
Proof. unfold np_empty. now rewrite map_length, seq_length. Qed.

Lemma one_repeat (v : list Z) k : length v = k -> match v with [x] => repeat x k | _ => v end = v.
Proof. destruct v as [|x [|y v]]; cbn; intros <-; reflexivity. Qed.
Lemma set_head buf off v : 0 <= off <= Z.of_nat (length buf) -> length v = Z.to_nat off ->
  set_range buf None (Some off) v = Ok (v ++ skipn (Z.to_nat off) buf).
Proof.
  intros H Hv. unfold set_range. cbn [slice_bound]. destruct (Z.ltb_spec off 0); [lia|].
  replace (Nat.max (Z.to_nat 0) (Z.to_nat (Z.max 0 (Z.min off (Z.of_nat (length buf)))))) with (Z.to_nat off) by lia.
  replace (Z.to_nat off - Z.to_nat 0)%nat with (Z.to_nat off) by lia.
  rewrite one_repeat by assumption. rewrite Hv, Nat.eqb_refl. reflexivity.
Qed.
Lemma set_tail buf off v : 0 <= off <= Z.of_nat (length buf) -> length v = (length buf - Z.to_nat off)%nat ->
  set_range buf (Some off) None v = Ok (firstn (Z.to_nat off) buf ++ v).
Proof.
  intros H Hv. unfold set_range. cbn [slice_bound]. destruct (Z.ltb_spec off 0); [lia|].
  replace (Z.max 0 (Z.min off (Z.of_nat (length buf)))) with off by lia.
  replace (Nat.max (Z.to_nat off) (Z.to_nat (Z.of_nat (length buf)))) with (length buf) by lia.
  rewrite one_repeat by assumption. rewrite Hv, Nat.eqb_refl, skipn_all, app_nil_r. reflexivity.
Qed.

Lemma fill2 buf off v w : 0 <= off <= Z.of_nat (length buf) -> length v = Z.to_nat off ->
  length w = (length buf - Z.to_nat off)%nat ->
  (let! b := set_range buf None (Some off) v in set_range b (Some off) None w) = Ok (v ++ w).
Proof.
  intros H Hv Hw. rewrite set_head by assumption. cbn [bind].
  rewrite set_tail.
  - rewrite firstn_app, Hv, Nat.sub_diag. cbn. rewrite app_nil_r, <- Hv, firstn_all. reflexivity.
  - rewrite app_length, skipn_length. lia.
  - rewrite app_length, skipn_length. lia.
Qed.

(* npos is a rotation of n points; with IDL's convention no points give npos = 1 or -1 *)
Definition rotation (n npos : Z) : Prop := (0 <= npos <= n) \/ (n = 0 /\ (npos = 1 \/ npos = -1)).

Lemma shift_ind_ok mem n npos : 0 <= n -> rotation n npos ->
  exists ind, shift_ind mem n npos = Ok ind /\ length ind = Z.to_nat n /\
    forall i d, (i < Z.to_nat n)%nat -> nth i ind d = (Z.of_nat i + npos) mod n.
Proof.
  intros Hn [H|[-> Hp]].
  2:{ exists []. destruct Hp as [-> | ->]; (split; [reflexivity|]; split; [reflexivity|]; cbn; lia). }
  exists (arange npos n ++ arange 0 npos). split.
  { unfold shift_ind. apply fill2; rewrite ?arange_length, ?empty_length; lia. }
  split; [rewrite app_length, !arange_length; lia|].
  intros i d Hi. destruct (Nat.ltb_spec i (Z.to_nat (n - npos))) as [Hlt|Hge].
  - rewrite app_nth1 by now rewrite arange_length. rewrite arange_nth by assumption.
    rewrite Z.mod_small by lia. lia.
  - rewrite app_nth2 by (rewrite arange_length; lia). rewrite arange_length, arange_nth by lia.
    replace (Z.of_nat i + npos) with (Z.of_nat i + npos - n + 1 * n) by lia.
    rewrite Z.mod_add by lia. rewrite Z.mod_small by lia. lia.
Qed.

Lemma mapM_pos n l : Forall (fun i => 0 <= i < Z.of_nat n) l ->
  mapM (fun i => match py_pos n i with Some k => Ok k | None => Err IndexError end) l = Ok (map Z.to_nat l).
Proof.
  induction l as [|i l IH]; intros H; [reflexivity|]. inversion H; subst. cbn [mapM].
  unfold py_pos. destruct (Z.leb_spec 0 i); [|lia]. destruct (Z.ltb_spec i (Z.of_nat n)); [|lia]. cbn.
  unfold py_pos in IH. rewrite IH by assumption. reflexivity.
Qed.

Section Shift.
Context {V : Type} (mem : nat -> Z).

Lemma take_rotation (out : arr V) pre n dims npos ind :
  shp out = pre ++ n :: dims -> shift_ind mem (Z.of_nat n) npos = Ok ind -> rotation (Z.of_nat n) npos ->
  exists r, np_take out ind (length pre) = Ok r /\ shp r = shp out /\
    forall o1 i o2, length o1 = length pre -> (i < n)%nat ->
      elt r (o1 ++ i :: o2) = elt out (o1 ++ unshifted npos n i :: o2).
Proof.
  intros Hs Hi Hr. destruct (shift_ind_ok mem (Z.of_nat n) npos) as (ind' & H1 & H2 & H3); [lia|assumption|].
  rewrite Hi in H1. injection H1 as <-. unfold np_take. rewrite Hs.
  rewrite nth_error_app2, Nat.sub_diag by lia. cbn [nth_error].
  rewrite mapM_pos.
  2:{ apply Forall_forall. intros z Hz. apply In_nth with (d := 0) in Hz as (i & Hlt & <-).
      rewrite H3 by lia. apply Z.mod_pos_bound. lia. }
  cbn [bind]. eexists. split; [reflexivity|]. cbn [shp elt]. split.
  - rewrite map_length, H2, Nat2Z.id. clear. induction pre; cbn; congruence.
  - intros o1 i o2 Ho Hlt. f_equal.
    assert (forall x, set_nth (o1 ++ i :: o2) (length pre) x = o1 ++ x :: o2) as ->.
    { intros x. rewrite <- Ho. clear. induction o1; cbn; congruence. }
    f_equal. f_equal. rewrite app_nth2, Ho, Nat.sub_diag by lia. cbn [nth].
    unfold unshifted. rewrite <- (H3 i 0) by lia.
    rewrite nth_indep with (d' := Z.to_nat 0) by (rewrite map_length; lia). now rewrite map_nth.
Qed.

Lemma shift_dims_ok npos dims : (forall n, 0 <= n -> rotation n (npos n)) -> forall pre (out : arr V),
  shp out = pre ++ dims ->
  exists r, shift_dims mem dims npos (length pre) out = Ok r /\ shp r = shp out /\
    forall o1 o2, length o1 = length pre -> inside dims o2 ->
      elt r (o1 ++ o2) = elt out (o1 ++ unshifted_dims npos dims o2).
Proof.
  intros Hr. induction dims as [|n dims IH]; intros pre out Hs.
  - exists out. split; [reflexivity|]. split; [reflexivity|]. intros o1 o2 _ Ho. inversion Ho; subst. reflexivity.
  - cbn [shift_dims].
    destruct (shift_ind_ok mem (Z.of_nat n) (npos (Z.of_nat n))) as (ind & Hi & _); [lia|apply Hr; lia|].
    rewrite Hi. cbn [bind].
    destruct (take_rotation out pre n dims _ ind Hs Hi) as (r & Hk & Hsr & He); [apply Hr; lia|].
    rewrite Hk. cbn [bind].
    destruct (IH (pre ++ [n]) r) as (r' & Hk' & Hsr' & He').
    { rewrite Hsr, Hs, <- app_assoc. reflexivity. }
    rewrite app_length in Hk'. cbn in Hk'. replace (length pre + 1)%nat with (S (length pre)) in Hk' by lia.
    exists r'. split; [exact Hk'|]. split; [congruence|].
    intros o1 o2 Ho Hin. inversion Hin as [|? i ? o2' Hlt Hin']; subst.
    change (o1 ++ i :: o2') with (o1 ++ [i] ++ o2'). rewrite app_assoc.
    rewrite He' by (rewrite ?app_length; cbn; try lia; assumption).
    rewrite <- app_assoc. cbn [app]. rewrite He by (rewrite ?app_length; cbn; lia).
    reflexivity.
Qed.
End Shift.

Lemma unshifted_bound z n i : (0 < n)%nat -> (unshifted z n i < n)%nat.
Proof. intros H. unfold unshifted. assert (0 <= (Z.of_nat i + z) mod Z.of_nat n < Z.of_nat n) by (apply Z.mod_pos_bound; lia). lia. Qed.
Lemma unshifted_inside f dims o : inside dims o -> inside dims (unshifted_dims f dims o).
Proof.
  induction 1 as [|n i dims o H _ IH]; [constructor|]. constructor; [|exact IH]. apply unshifted_bound. cbn. lia.
Qed.
Lemma unshifted_congr z z' n i : (0 < n)%nat -> (z - z') mod Z.of_nat n = 0 -> unshifted z n i = unshifted z' n i.
Proof.
  intros Hn H. unfold unshifted. f_equal. apply Z.mod_divide in H; [|lia]. destruct H as [k Hk].
  replace (Z.of_nat i + z) with (Z.of_nat i + z' + k * Z.of_nat n) by lia. apply Z.mod_add. lia.
Qed.
Lemma unshifted_twice z z' n i : (i < n)%nat -> (z + z') mod Z.of_nat n = 0 -> unshifted z n (unshifted z' n i) = i.
Proof.
  intros Hn H. unfold unshifted. assert (0 <= (Z.of_nat i + z') mod Z.of_nat n < Z.of_nat n) by (apply Z.mod_pos_bound; lia).
  rewrite Z2Nat.id by lia. rewrite Zplus_mod_idemp_l. apply Z.mod_divide in H; [|lia]. destruct H as [k Hk].
  replace (Z.of_nat i + z' + z) with (Z.of_nat i + k * Z.of_nat n) by lia. rewrite Z.mod_add by lia.
  rewrite Z.mod_small by lia. lia.
Qed.
Lemma unshifted_dims_twice f g dims o : inside dims o ->
  (forall n, 0 < n -> (f n + g n) mod n = 0) ->
  unshifted_dims f dims (unshifted_dims g dims o) = o.
Proof.
  intros H Hfg. unfold unshifted_dims. induction H as [|n i dims o Hlt _ IH]; [reflexivity|]. cbn. f_equal; [|exact IH].
  apply unshifted_twice; [assumption|apply Hfg; lia].
Qed.
Lemma unshifted_dims_congr f g dims o : inside dims o ->
  (forall n, 0 < n -> (f n - g n) mod n = 0) -> unshifted_dims f dims o = unshifted_dims g dims o.
Proof.
  intros H Hfg. unfold unshifted_dims. induction H as [|n i dims o Hlt _ IH]; [reflexivity|]. cbn. f_equal; [|exact IH].
  apply unshifted_congr; [lia|apply Hfg; lia].
Qed.

(* frequency indices *)
Lemma freqind_spec n c : fst (fft_freqind n c) = lowest c n.
Proof. destruct c; unfold fft_freqind, lowest; cbn [fst snd]; [reflexivity|]. Z.div_mod_to_equations. lia. Qed.
Lemma freqind_count n c : snd (fft_freqind n c) + 1 - fst (fft_freqind n c) = n.
Proof. destruct c; unfold fft_freqind; cbn [fst snd]; Z.div_mod_to_equations; lia. Qed.
Lemma npos_rotation c n : 0 <= n -> rotation n (snd (fft_freqind n c) + 1).
Proof. intros H. unfold rotation. destruct c; unfold fft_freqind; cbn [fst snd]; Z.div_mod_to_equations; lia. Qed.
Lemma nneg_rotation c n : 0 <= n -> rotation n (- fst (fft_freqind n c)).
Proof. intros H. unfold rotation. destruct c; unfold fft_freqind; cbn [fst snd]; Z.div_mod_to_equations; lia. Qed.

Lemma fftshift_ok {V} mem (a : arr V) c : exists b, fftshift mem a c = Ok b /\ shp b = shp a /\
  forall o, inside (shp a) o -> elt b o = elt a (unshifted_dims (lowest c) (shp a) o).
Proof.
  destruct (shift_dims_ok mem (fun n => snd (fft_freqind n c) + 1) (shp a) (npos_rotation c) [] a eq_refl)
    as (r & H1 & H2 & H3).
  exists r. split; [exact H1|]. split; [exact H2|]. intros o Ho. etransitivity; [apply (H3 [] o eq_refl Ho)|].
  cbn [app]. f_equal. apply unshifted_dims_congr; [assumption|]. intros n Hn. rewrite <- freqind_spec, freqind_count.
  apply Z.mod_same. lia.
Qed.
Lemma ifftshift_ok {V} mem (a : arr V) c : exists b, ifftshift mem a c = Ok b /\ shp b = shp a /\
  forall o, inside (shp a) o -> elt b o = elt a (unshifted_dims (fun n => - lowest c n) (shp a) o).
Proof.
  destruct (shift_dims_ok mem (fun n => - fst (fft_freqind n c)) (shp a) (nneg_rotation c) [] a eq_refl)
    as (r & H1 & H2 & H3).
  exists r. split; [exact H1|]. split; [exact H2|]. intros o Ho. etransitivity; [apply (H3 [] o eq_refl Ho)|].
  cbn [app]. f_equal. apply unshifted_dims_congr; [assumption|]. intros n Hn. rewrite <- freqind_spec, Z.sub_diag. reflexivity.
Qed.

Lemma shift_back {V} mem mem' (a : arr V) c :
  (exists b a', fftshift mem a c = Ok b /\ ifftshift mem' b c = Ok a' /\ arr_eq a' a) /\
  (exists b a', ifftshift mem a c = Ok b /\ fftshift mem' b c = Ok a' /\ arr_eq a' a).
Proof.
  split.
  - destruct (fftshift_ok mem a c) as (b & H1 & H2 & H3). destruct (ifftshift_ok mem' b c) as (a' & H4 & H5 & H6).
    exists b, a'. split; [assumption|]. split; [assumption|]. split; [congruence|].
    intros o Ho. rewrite H5 in Ho. rewrite H6 by assumption. rewrite H2 in *.
    rewrite H3 by now apply unshifted_inside. rewrite unshifted_dims_twice; [reflexivity|assumption|].
    intros n Hn. rewrite Z.add_opp_diag_r. reflexivity.
  - destruct (ifftshift_ok mem a c) as (b & H1 & H2 & H3). destruct (fftshift_ok mem' b c) as (a' & H4 & H5 & H6).
    exists b, a'. split; [assumption|]. split; [assumption|]. split; [congruence|].
    intros o Ho. rewrite H5 in Ho. rewrite H6 by assumption. rewrite H2 in *.
    rewrite H3 by now apply unshifted_inside. rewrite unshifted_dims_twice; [reflexivity|assumption|].
    intros n Hn. rewrite Z.add_opp_diag_l. reflexivity.
Qed.

(* ---- the frequency axis ---- *)
Lemma seq_shift_map a b n : seq (a + b) n = map (fun i => (a + i)%nat) (seq b n).
Proof. revert b. induction n as [|n IH]; intros b; [reflexivity|]. cbn. f_equal. rewrite <- IH. f_equal. lia. Qed.

Definition freq_of (n : nat) (d : Qc) (k : Z) : Qc := (Qc_of_Z k / (Qc_of_Z (Z.of_nat n) * d))%Qc.
(* the frequency index at position j, zero first *)
Definition freq_index (c : convention) (n j : nat) : Z :=
  if Z.of_nat j <=? snd (fft_freqind (Z.of_nat n) c) then Z.of_nat j else Z.of_nat j - Z.of_nat n.

Lemma fftfreq_centered mem n d c :
  fftfreq mem (Z.of_nat n) d true c =
  Ok (map (fun i => freq_of n d (lowest c (Z.of_nat n) + Z.of_nat i)) (seq 0 n)).
Proof.
  unfold fftfreq. assert (Hc := freqind_count (Z.of_nat n) c). assert (Hl := freqind_spec (Z.of_nat n) c).
  destruct (fft_freqind (Z.of_nat n) c) as [imin imax] eqn:E. cbn [fst snd] in Hc, Hl. subst imin.
  cbn [bind]. unfold arange. rewrite map_map. rewrite Hc, Nat2Z.id. reflexivity.
Qed.
Lemma fftfreq_plain mem n d c :
  fftfreq mem (Z.of_nat n) d false c = Ok (map (fun j => freq_of n d (freq_index c n j)) (seq 0 n)).
Proof.
  destruct (Nat.eq_dec n 0) as [->|Hn]. { destruct c; reflexivity. }
  unfold fftfreq, freq_index. assert (Hc := freqind_count (Z.of_nat n) c).
  assert (Hp := npos_rotation c (Z.of_nat n) ltac:(lia)).
  destruct (fft_freqind (Z.of_nat n) c) as [imin imax] eqn:E. cbn [fst snd] in *.
  destruct Hp as [Hp|[Hp _]]; [|lia].
  rewrite fill2; rewrite ?arange_length, ?empty_length; try lia. cbn [bind]. f_equal.
  replace (seq 0 n) with (seq 0 (Z.to_nat (imax + 1)) ++ seq (0 + Z.to_nat (imax + 1)) (Z.to_nat (- imin))).
  2:{ rewrite <- seq_app. f_equal. lia. }
  rewrite !map_app. f_equal.
  - unfold arange. rewrite map_map, Z.sub_0_r. apply map_ext_in. intros i Hi. apply in_seq in Hi.
    destruct (Z.leb_spec (Z.of_nat i) imax); [|lia]. unfold freq_of. f_equal.
  - unfold arange. rewrite map_map. cbn [Nat.add]. replace (0 - imin) with (- imin) by lia.
    rewrite <- (Nat.add_0_r (Z.to_nat (imax + 1))). rewrite seq_shift_map. rewrite map_map. apply map_ext_in. intros i Hi. apply in_seq in Hi.
    destruct (Z.leb_spec (Z.of_nat (Z.to_nat (imax + 1) + i)) imax); [lia|]. unfold freq_of. do 2 f_equal. lia.
Qed.
Lemma freq_index_spec c n j : (j < n)%nat ->
  (freq_index c n j - Z.of_nat j) mod Z.of_nat n = 0 /\
  lowest c (Z.of_nat n) <= freq_index c n j < lowest c (Z.of_nat n) + Z.of_nat n.
Proof.
  intros H. unfold freq_index. rewrite <- freqind_spec.
  assert (Hc := freqind_count (Z.of_nat n) c). assert (Hp := npos_rotation c (Z.of_nat n) ltac:(lia)).
  destruct (fft_freqind (Z.of_nat n) c) as [imin imax]. cbn [fst snd] in *. destruct Hp as [Hp|[Hp _]]; [|lia].
  destruct (Z.leb_spec (Z.of_nat j) imax).
  - rewrite Z.sub_diag, Z.mod_0_l by lia. lia.
  - split; [|lia]. replace (Z.of_nat j - Z.of_nat n - Z.of_nat j) with (-1 * Z.of_nat n) by lia. apply Z.mod_mul. lia.
Qed.
Lemma congr_range n a b k : 0 < n -> (a - b) mod n = 0 -> k <= a < k + n -> k <= b < k + n -> a = b.
Proof. intros Hn H Ha Hb. apply Z.mod_divide in H; [|lia]. destruct H as [q Hq]. assert (q = 0) by nia. lia. Qed.
Lemma freq_index_unshifted c n i : (i < n)%nat ->
  freq_index c n (unshifted (lowest c (Z.of_nat n)) n i) = lowest c (Z.of_nat n) + Z.of_nat i.
Proof.
  intros H. destruct (freq_index_spec c n (unshifted (lowest c (Z.of_nat n)) n i)) as [H1 H2]; [apply unshifted_bound; lia|].
  apply (congr_range (Z.of_nat n) _ _ (lowest c (Z.of_nat n))); try lia.
  unfold unshifted in *. rewrite Z2Nat.id in * by (apply Z.mod_pos_bound; lia).
  apply Z.mod_divide in H1; [|lia]. destruct H1 as [q Hq].
  apply Z.mod_divide; [lia|].
  exists (q - (Z.of_nat i + lowest c (Z.of_nat n)) / Z.of_nat n).
  assert (Hd := Z.div_mod (Z.of_nat i + lowest c (Z.of_nat n)) (Z.of_nat n) ltac:(lia)). lia.
Qed.
Lemma Qc_of_Z_lt a b : a < b -> (Qc_of_Z a < Qc_of_Z b)%Qc.
Proof.
  intros H. unfold Qc_of_Z, Qclt. rewrite !this_Q2Qc. rewrite <- Zlt_Qlt. assumption.
Qed.
Lemma Qc_of_Z_pos n : 0 < n -> (0 < Qc_of_Z n)%Qc.
Proof. intros H. exact (Qc_of_Z_lt 0 n H). Qed.
Lemma Qc_of_Z_inj a b : Qc_of_Z a = Qc_of_Z b -> a = b.
Proof.
  intros H. destruct (Z.lt_total a b) as [Hl|[Hl|Hl]]; [|exact Hl|];
    apply Qc_of_Z_lt in Hl; rewrite H in Hl; exfalso; exact (Qclt_not_eq _ _ Hl eq_refl).
Qed.
Lemma Qc_pos_ne q : (0 < q -> q <> 0)%Qc.
Proof. intros H ->. exact (Qclt_not_eq _ _ H eq_refl). Qed.
Lemma Qcmult_pos p q : (0 < p -> 0 < q -> 0 < p * q)%Qc.
Proof. intros H1 H2. qcnra. Qed.
Lemma freq_of_mul n d k : (0 < n)%nat -> (d <> 0)%Qc -> (freq_of n d k * (Qc_of_Z (Z.of_nat n) * d))%Qc = Qc_of_Z k.
Proof.
  intros Hn Hd. unfold freq_of. field. split; [exact Hd|]. apply Qc_pos_ne, Qc_of_Z_pos. lia.
Qed.
Lemma freq_of_lt n d a b : (0 < n)%nat -> (0 < d)%Qc -> a < b -> (freq_of n d a < freq_of n d b)%Qc.
Proof.
  intros Hn Hd H. assert (H1 := freq_of_mul n d a Hn (Qc_pos_ne _ Hd)). assert (H2 := freq_of_mul n d b Hn (Qc_pos_ne _ Hd)).
  assert (0 < Qc_of_Z (Z.of_nat n) * d)%Qc as Hp. { apply Qcmult_pos; [apply Qc_of_Z_pos; lia|assumption]. }
  apply Qc_of_Z_lt in H. rewrite <- H1, <- H2 in H. apply Qcnot_le_lt. intros Hle. apply (Qclt_not_le _ _ H).
  now apply Qcmult_le_compat_r; [|apply Qclt_le_weak].
Qed.
Lemma freq_of_inj n d a b : (0 < n)%nat -> (d <> 0)%Qc -> freq_of n d a = freq_of n d b -> a = b.
Proof. intros Hn Hd H. apply Qc_of_Z_inj. rewrite <- (freq_of_mul n d a), <- (freq_of_mul n d b) by assumption. now rewrite H. Qed.

Lemma sorted_map_seq {A} (R : A -> A -> Prop) (f : nat -> A) a n :
  (forall i j, (a <= i < j)%nat -> (j < a + n)%nat -> R (f i) (f j)) -> StronglySorted R (map f (seq a n)).
Proof.
  revert a. induction n as [|n IH]; intros a H; [constructor|]. cbn. constructor.
  - apply IH. intros i j Hij Hj. apply H; lia.
  - apply Forall_forall. intros x Hx. apply in_map_iff in Hx as (j & <- & Hj). apply in_seq in Hj. apply H; lia.
Qed.
Lemma nodup_map_seq {A} (f : nat -> A) a n :
  (forall i j, (a <= i < j)%nat -> (j < a + n)%nat -> f i <> f j) -> NoDup (map f (seq a n)).
Proof.
  revert a. induction n as [|n IH]; intros a H; [constructor|]. cbn. constructor.
  - intros Hin. apply in_map_iff in Hin as (j & E & Hj). apply in_seq in Hj. revert E. apply not_eq_sym, H; lia.
  - apply IH. intros i j Hij Hj. apply H; lia.
Qed.
Lemma nth_error_map_seq {A} (f : nat -> A) n i : (i < n)%nat -> nth_error (map f (seq 0 n)) i = Some (f i).
Proof.
  intros H. rewrite nth_error_map, nth_error_seq'. destruct (Nat.ltb_spec i n); [reflexivity|lia].
Qed.

Lemma frequency_axis mem mem' n d c : (0 < n)%nat -> (0 < d)%Qc ->
  exists l lc, fftfreq mem (Z.of_nat n) d false c = Ok l /\ fftfreq mem' (Z.of_nat n) d true c = Ok lc /\
    length l = n /\ length lc = n /\ NoDup l /\ StronglySorted Qclt lc /\
    (forall i, (i < n)%nat -> nth_error lc i = nth_error l (unshifted (lowest c (Z.of_nat n)) n i)) /\
    (forall j, (j < n)%nat -> exists k, nth_error l j = Some (Qc_of_Z k / (Qc_of_Z (Z.of_nat n) * d))%Qc /\
      (k - Z.of_nat j) mod Z.of_nat n = 0 /\ lowest c (Z.of_nat n) <= k < lowest c (Z.of_nat n) + Z.of_nat n).
Proof.
  intros Hn Hd. rewrite fftfreq_plain, fftfreq_centered. do 2 eexists. split; [reflexivity|]. split; [reflexivity|].
  split; [now rewrite map_length, seq_length|]. split; [now rewrite map_length, seq_length|].
  split; [|split; [|split]].
  - apply nodup_map_seq. intros i j Hij Hj E. apply freq_of_inj in E; [|assumption|now apply Qc_pos_ne].
    destruct (freq_index_spec c n i) as [H1 H2]; [lia|]. destruct (freq_index_spec c n j) as [H3 H4]; [lia|].
    rewrite E in H1. assert ((Z.of_nat i - Z.of_nat j) mod Z.of_nat n = 0) as H5.
    { replace (Z.of_nat i - Z.of_nat j) with ((freq_index c n j - Z.of_nat j) - (freq_index c n j - Z.of_nat i)) by lia.
      rewrite Zminus_mod, H1, H3. reflexivity. }
    apply (congr_range _ _ _ 0) in H5; lia.
  - apply sorted_map_seq. intros i j Hij Hj. apply freq_of_lt; [assumption|assumption|lia].
  - intros i Hi. rewrite nth_error_map_seq by assumption.
    rewrite nth_error_map_seq by (apply unshifted_bound; lia). now rewrite freq_index_unshifted.
  - intros j Hj. exists (freq_index c n j). rewrite nth_error_map_seq by assumption. split; [reflexivity|].
    now apply freq_index_spec.
Qed.

(* for examples *)
Fixpoint Qc_list_eqb (l l' : list Qc) : bool :=
  match l, l' with [], [] => true | a :: l, b :: l' => Qc_eqb a b && Qc_list_eqb l l' | _, _ => false end.
Lemma Qc_ok_list_eq (r : result (list Qc)) l : match r with Ok l' => Qc_list_eqb l' l | Err _ => false end = true -> r = Ok l.
Proof.
  destruct r as [l'|]; [|discriminate]. intros H. f_equal. revert l H.
  induction l' as [|a l' IH]; intros [|b l] H; try discriminate; [reflexivity|].
  cbn in H. apply andb_true_iff in H as [H1 H2]. apply Qc_eqb_spec in H1. subst. f_equal. auto.
Qed.
