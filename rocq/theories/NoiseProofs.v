From Verif Require Import NoiseModel NoiseSpec.
From Verif Require ScalarProofs.
From Coq Require Import Lia Setoid Morphisms.
Local Open Scope Qc_scope.

(* ---- results ---- *)
Lemma rv_ok e v : 0 <= v -> randomvariable e v = Ok (e, v).
Proof. intros H. unfold randomvariable. destruct (Qc_ltb v 0) eqn:T; [|reflexivity]. qc_bool. exfalso. apply (Qclt_not_le _ _ T H). Qed.
Lemma rv_inv e v X : randomvariable e v = Ok X -> X = (e, v) /\ 0 <= v.
Proof. unfold randomvariable. destruct (Qc_ltb v 0) eqn:T; [discriminate|]. qc_bool. intros [= <-]. auto. Qed.
Lemma div_ok x y : y <> 0 -> div x y = Ok (x / y).
Proof. intros H. unfold div. apply Qc_eqb_false in H. now rewrite H. Qed.
Lemma div_inv x y z : div x y = Ok z -> y <> 0 /\ z = x / y.
Proof. unfold div. destruct (Qc_eqb y 0) eqn:T; [discriminate|]. qc_bool. intros H. split; [exact T|]. congruence. Qed.
Lemma square_nonneg (x : Qc) : 0 <= x * x. Proof. qcnra. Qed.
Lemma mult_nonneg (x y : Qc) : 0 <= x -> 0 <= y -> 0 <= x * y. Proof. qcnra. Qed.
Lemma add_nonneg (x y : Qc) : 0 <= x -> 0 <= y -> 0 <= x + y. Proof. qclra. Qed.
Lemma pos_neq (x : Qc) : 0 < x -> x <> 0. Proof. intros H ->. qclra. Qed.
Lemma pos_le (x : Qc) : 0 < x -> 0 <= x. Proof. qclra. Qed.
Lemma square_neq (x : Qc) : x <> 0 -> x * x <> 0.
Proof. intros H K. apply H. destruct (Qcmult_integral _ _ K); assumption. Qed.
Lemma ok_pair (a b c d : Qc) : a = c -> b = d -> @Ok rv (a, b) = Ok (c, d). Proof. now intros -> ->. Qed.

(* ---- sums over a distribution ---- *)
Lemma total_ext f g d : (forall x, f x = g x) -> total f d = total g d.
Proof. intros H. induction d as [|[x w] d IH]; cbn [total]; [reflexivity|]. now rewrite H, IH. Qed.
Lemma total_app f a b : total f (a ++ b) = total f a + total f b.
Proof. induction a as [|[x w] a IH]; cbn [total app]; [ring|]. rewrite IH. ring. Qed.
Lemma total_lin c f g d : total (fun x => c * f x + g x) d = c * total f d + total g d.
Proof. induction d as [|[x w] d IH]; cbn [total]; [ring|]. rewrite IH. ring. Qed.
Lemma total_add f g d : total (fun x => f x + g x) d = total f d + total g d.
Proof. rewrite <- (total_ext (fun x => 1 * f x + g x)) by (intros; ring). rewrite total_lin. ring. Qed.
Lemma total_scale c f d : total (fun x => c * f x) d = c * total f d.
Proof. induction d as [|[x w] d IH]; cbn [total]; [ring|]. rewrite IH. ring. Qed.
Lemma total_const c d : total (fun _ => c) d = c * total (fun _ => 1) d.
Proof. rewrite <- total_scale. apply total_ext. intros; ring. Qed.
Lemma total_weight f c g d : total f (map (fun y => (g (fst y), c * snd y)) d) = c * total (fun y => f (g y)) d.
Proof. induction d as [|[x w] d IH]; cbn [total map fst snd]; [ring|]. rewrite IH. ring. Qed.
Lemma total_combine h f a b : total h (combine f a b) = total (fun x => total (fun y => h (f x y)) b) a.
Proof.
  induction a as [|[x w] a IH]; [reflexivity|]. unfold combine in *. cbn [flat_map total fst snd]. rewrite total_app, IH. rewrite (total_weight h w (f x)). ring.
Qed.
Lemma total_nonneg f d : Forall (fun e => 0 <= snd e) d -> (forall x, 0 <= f x) -> 0 <= total f d.
Proof. intros F H. induction F as [|[x w] d W _ IH]; cbn [total]; [apply Qcle_refl|]. apply add_nonneg; [|exact IH]. now apply mult_nonneg. Qed.

Definition mass (d : dist) : Qc := total (fun _ => 1) d.
Definition second (d : dist) : Qc := total (fun x => x * x) d.
Lemma variance_second d : mass d = 1 -> variance d = second d - mean d * mean d.
Proof.
  intros M. unfold variance. rewrite (total_ext _ (fun x => (- ((1 + 1) * mean d)) * x + (x * x + mean d * mean d))) by (intros; ring). rewrite total_lin, total_add, total_const. fold (mean d) (second d) (mass d). rewrite M. ring.
Qed.
Lemma variance_nonneg d : proper d -> 0 <= variance d.
Proof. intros [F _]. apply total_nonneg; [exact F|]. intros. apply square_nonneg. Qed.
Lemma proper_mass d : proper d -> mass d = 1. Proof. now intros [_ H]. Qed.
Lemma mass_combine f a b : mass (combine f a b) = mass a * mass b.
Proof. unfold mass. rewrite total_combine. fold (mass b). rewrite total_const. fold (mass a). ring. Qed.
Lemma mean_sum a b : mean (sum a b) = mean a * mass b + mass a * mean b.
Proof.
  unfold mean at 1, sum. rewrite total_combine. rewrite (total_ext _ (fun x => mass b * x + mean b)).
  - rewrite total_lin, total_const. fold (mass a) (mean a). ring.
  - intros x. rewrite total_add, total_const. fold (mass b) (mean b). ring.
Qed.
Lemma second_sum a b : second (sum a b) = second a * mass b + (1 + 1) * mean a * mean b + mass a * second b.
Proof.
  unfold second at 1, sum. rewrite total_combine. rewrite (total_ext _ (fun x => ((1 + 1) * mean b) * x + (mass b * (x * x) + second b))).
  - rewrite total_lin, total_lin, total_const. fold (mass a) (mean a) (second a). ring.
  - intros x. rewrite (total_ext _ (fun y => ((1 + 1) * x) * y + (y * y + x * x))) by (intros; ring). rewrite total_lin, total_add, total_const. fold (mass b) (mean b) (second b). ring.
Qed.
Lemma combine_weights f a b : Forall (fun e => 0 <= snd e) a -> Forall (fun e => 0 <= snd e) b -> Forall (fun e => 0 <= snd e) (combine f a b).
Proof.
  intros A B. unfold combine. apply Forall_flat_map. eapply Forall_impl; [|exact A]. intros [x w] W. apply Forall_map. eapply Forall_impl; [|exact B]. intros [y v] V. cbn in *. now apply mult_nonneg.
Qed.
Lemma combine_proper f a b : proper a -> proper b -> proper (combine f a b).
Proof. intros [A A1] [B B1]. split; [now apply combine_weights|]. fold (mass (combine f a b)). rewrite mass_combine. unfold mass. rewrite A1, B1. ring. Qed.
Lemma sum_of_proper X n : proper X -> proper (sum_of n X).
Proof.
  intros P. induction n as [|n IH]; cbn [sum_of].
  - split; [repeat constructor; cbn; qclra|]. cbn [total]. ring.
  - now apply combine_proper.
Qed.
Lemma of_S n : Qc_of_Z (Z.of_nat (S n)) = Qc_of_Z (Z.of_nat n) + 1.
Proof. rewrite Nat2Z.inj_succ. unfold Z.succ. rewrite Qc_of_Z_plus. reflexivity. Qed.
Lemma of_0 : Qc_of_Z (Z.of_nat 0) = 0. Proof. reflexivity. Qed.
Lemma of_nonneg n : 0 <= Qc_of_Z (Z.of_nat n). Proof. change 0 with (Qc_of_Z 0). apply Qc_of_Z_le. lia. Qed.
Lemma sum_of_mean X n : proper X -> mean (sum_of n X) = Qc_of_Z (Z.of_nat n) * mean X.
Proof.
  intros P. induction n as [|n IH]; cbn [sum_of]; [rewrite of_0; unfold mean; cbn [total]; ring|]. rewrite mean_sum, IH, (proper_mass _ P), (proper_mass _ (sum_of_proper _ n P)), of_S. ring.
Qed.
Lemma sum_of_second X n : proper X -> second (sum_of n X) = Qc_of_Z (Z.of_nat n) * variance X + Qc_of_Z (Z.of_nat n) * Qc_of_Z (Z.of_nat n) * mean X * mean X.
Proof.
  intros P. rewrite variance_second by now apply proper_mass. induction n as [|n IH]; cbn [sum_of]; [rewrite of_0; unfold second; cbn [total]; ring|].
  rewrite second_sum, IH, (proper_mass _ P), (proper_mass _ (sum_of_proper _ n P)), of_S, sum_of_mean by exact P. ring.
Qed.
Lemma sum_of_variance X n : proper X -> variance (sum_of n X) = Qc_of_Z (Z.of_nat n) * variance X.
Proof. intros P. rewrite variance_second by (apply proper_mass; now apply sum_of_proper). rewrite sum_of_second, sum_of_mean by exact P. ring. Qed.
Lemma total_random h N X : total h (random_sum N X) = fold_right (fun e r => snd e * total h (sum_of (fst e) X) + r) 0 N.
Proof.
  unfold random_sum. induction N as [|[n w] N IH]; [reflexivity|]. cbn [flat_map fold_right fst snd]. rewrite total_app, IH. f_equal. exact (total_weight h w (fun y => y) (sum_of n X)).
Qed.
Lemma total_numbers h N : total h (numbers N) = fold_right (fun e r => snd e * h (Qc_of_Z (Z.of_nat (fst e))) + r) 0 N.
Proof. unfold numbers. induction N as [|[n w] N IH]; [reflexivity|]. cbn [map total fold_right fst snd]. rewrite IH. ring. Qed.
Lemma random_total h g N X : (forall n, total h (sum_of n X) = g (Qc_of_Z (Z.of_nat n))) -> total h (random_sum N X) = total g (numbers N).
Proof. intros H. rewrite total_random, total_numbers. induction N as [|[n w] N IH]; [reflexivity|]. cbn [fold_right fst snd]. now rewrite IH, H. Qed.
Lemma numbers_nonneg N : proper (numbers N) -> 0 <= mean (numbers N).
Proof.
  intros [F _]. unfold mean. rewrite total_numbers. unfold numbers in F. rewrite Forall_map in F. induction F as [|[n w] N W _ IH]; cbn [fold_right fst snd]; [apply Qcle_refl|]. apply add_nonneg; [|exact IH]. apply mult_nonneg; [exact W|apply of_nonneg].
Qed.
Lemma random_proper N X : proper (numbers N) -> proper X -> proper (random_sum N X).
Proof.
  intros [F M] P. split.
  - unfold random_sum. apply Forall_flat_map. unfold numbers in F. rewrite Forall_map in F. eapply Forall_impl; [|exact F]. intros [n w] W. apply Forall_map. destruct (sum_of_proper X n P) as [G _]. eapply Forall_impl; [|exact G]. intros [y v] V. cbn in *. now apply mult_nonneg.
  - rewrite (random_total _ (fun _ => 1)); [exact M|]. intros n. apply (proper_mass _ (sum_of_proper X n P)).
Qed.
Lemma random_mean N X : proper X -> mean (random_sum N X) = mean (numbers N) * mean X.
Proof.
  intros P. unfold mean at 1. rewrite (random_total _ (fun n => mean X * n)).
  - rewrite total_scale. fold (mean (numbers N)). ring.
  - intros n. fold (mean (sum_of n X)). rewrite sum_of_mean by exact P. ring.
Qed.
Lemma random_variance N X : proper (numbers N) -> proper X -> variance (random_sum N X) = variance (numbers N) * mean X * mean X + variance X * mean (numbers N).
Proof.
  intros PN P. rewrite variance_second by (apply proper_mass; now apply random_proper). rewrite (variance_second (numbers N)) by now apply proper_mass. rewrite random_mean by exact P.
  unfold second at 1. rewrite (random_total _ (fun n => variance X * n + mean X * mean X * (n * n))).
  - rewrite total_lin, total_scale. fold (mean (numbers N)) (second (numbers N)). ring.
  - intros n. fold (second (sum_of n X)). rewrite sum_of_second by exact P. ring.
Qed.

Theorem compound_correct : forall N X, proper (numbers N) -> proper X -> compound (moments (numbers N)) (moments X) true = Ok (moments (random_sum N X)).
Proof.
  intros N X PN P. unfold compound, moments, E, VAR. cbn [fst snd]. rewrite <- random_mean by exact P. rewrite <- random_variance by assumption. apply rv_ok. apply variance_nonneg. now apply random_proper.
Qed.
Theorem repeat_correct : forall n X, proper X -> repeat (Qc_of_Z (Z.of_nat n)) (moments X) true = Ok (moments (sum_of n X)).
Proof.
  intros n X P. unfold repeat. assert (L : Qc_ltb (Qc_of_Z (Z.of_nat n)) 0 = false) by (apply Qc_ltb_ge; apply of_nonneg). rewrite L. unfold moments, E, VAR. cbn [fst snd]. rewrite rv_ok by (apply mult_nonneg; [now apply variance_nonneg|apply of_nonneg]).
  rewrite sum_of_mean, sum_of_variance by exact P. apply ok_pair; ring.
Qed.
Lemma variance_sum X Y : proper X -> proper Y -> variance (sum X Y) = variance X + variance Y.
Proof.
  intros P Q. assert (PS : proper (sum X Y)) by now apply combine_proper. rewrite !variance_second by (now apply proper_mass). rewrite second_sum, mean_sum, (proper_mass _ P), (proper_mass _ Q). ring.
Qed.
Definition minus (Y : dist) : dist := map (fun e => (- fst e, snd e)) Y.
Lemma total_minus f Y : total f (minus Y) = total (fun y => f (- y)) Y.
Proof. induction Y as [|[y w] Y IH]; [reflexivity|]. unfold minus in *. cbn [map total fst snd]. now rewrite IH. Qed.
Lemma minus_proper Y : proper Y -> proper (minus Y).
Proof. intros [F M]. split; [unfold minus; apply Forall_map; exact F|]. now rewrite total_minus. Qed.
Lemma difference X Y : combine Qcminus X Y = sum X (minus Y).
Proof.
  unfold combine, sum, minus. apply flat_map_ext. intros [x w]. rewrite map_map. apply map_ext. intros [y v]. reflexivity.
Qed.
Lemma minus_mean Y : mean (minus Y) = - mean Y.
Proof. unfold mean. rewrite total_minus. rewrite (total_ext _ (fun y => (- (1)) * y)) by (intros; ring). rewrite total_scale. ring. Qed.
Lemma minus_variance Y : variance (minus Y) = variance Y.
Proof. unfold variance. rewrite minus_mean, total_minus. apply total_ext. intros; ring. Qed.
Theorem reverse_add_correct : forall X Y, proper X -> proper Y -> reverse_add (moments (sum X Y)) (moments Y) = Ok (moments X).
Proof.
  intros X Y P Q. unfold reverse_add, moments, E, VAR. cbn [fst snd]. rewrite variance_sum, mean_sum, (proper_mass _ P), (proper_mass _ Q) by assumption.
  rewrite rv_ok; [apply ok_pair; ring|]. assert (H := variance_nonneg _ P). generalize dependent (variance X). generalize (variance Y). qclra.
Qed.
Theorem reverse_sub_correct : forall X Y, proper X -> proper Y -> reverse_sub (moments (combine Qcminus X Y)) (moments Y) = Ok (moments X).
Proof.
  intros X Y P Q. pose proof (minus_proper _ Q) as Q'. rewrite difference. unfold reverse_sub, moments, E, VAR. cbn [fst snd]. rewrite variance_sum, mean_sum, (proper_mass _ P), (proper_mass _ Q'), minus_mean, minus_variance by assumption.
  rewrite rv_ok; [apply ok_pair; ring|]. assert (H := variance_nonneg _ P). generalize dependent (variance X). generalize (variance Y). qclra.
Qed.
Theorem bernouilli_correct : forall p, 0 <= p -> p <= 1 -> proper (bernouilli_dist p) /\ bernouilli p = Ok (moments (bernouilli_dist p)).
Proof.
  intros p A B. assert (P : proper (bernouilli_dist p)). { split; [constructor; [exact A|constructor; [cbn; qclra|constructor]]|]. unfold bernouilli_dist. cbn [total]. ring. }
  split; [exact P|]. unfold bernouilli. rewrite rv_ok by (apply mult_nonneg; [exact A|qclra]). rewrite (surjective_pairing (moments _)). unfold moments. cbn [fst snd]. rewrite variance_second by now apply proper_mass. unfold second, mean, bernouilli_dist. cbn [total]. apply ok_pair; ring.
Qed.

(* ---- the inverses ---- *)
Theorem compound_back : forall N X Y, E X <> 0 -> 0 <= VAR N -> compound N X true = Ok Y -> compound Y X false = Ok N.
Proof.
  intros [en vn] [ex vx] Y X0 V H. unfold compound, E, VAR in *. cbn [fst snd] in *. apply rv_inv in H as [-> _]. cbn [fst snd].
  rewrite div_ok by exact X0. cbn [bind]. rewrite div_ok by now apply square_neq. cbn [bind]. assert (A : en * ex / ex = en) by (field; exact X0). rewrite A. assert (B : (vn * ex * ex + vx * en - vx * en) / (ex * ex) = vn) by (field; exact X0). rewrite B. now apply rv_ok.
Qed.
Theorem compound_forth : forall N X Y, 0 <= VAR N -> compound N X false = Ok Y -> compound Y X true = Ok N.
Proof.
  intros [en vn] [ex vx] Y V H. unfold compound, E, VAR in *. cbn [fst snd] in *. destruct (div en ex) as [e|] eqn:D1; cbn [bind] in H; [|discriminate]. apply div_inv in D1 as [X0 ->]. destruct (div _ (ex * ex)) as [v|] eqn:D2; cbn [bind] in H; [|discriminate]. apply div_inv in D2 as [_ ->]. apply rv_inv in H as [-> _]. cbn [fst snd].
  rewrite rv_ok.
  - apply ok_pair; field; exact X0.
  - assert (A : (vn - vx * (en / ex)) / (ex * ex) * ex * ex + vx * (en / ex) = vn) by (field; exact X0). now rewrite A.
Qed.
Theorem repeat_back : forall n X, 0 < n -> 0 <= VAR X -> exists Y, repeat n X true = Ok Y /\ repeat n Y false = Ok X.
Proof.
  intros n [e v] P V. unfold repeat, E, VAR in *. cbn [fst snd] in *. assert (L : Qc_ltb n 0 = false) by (apply Qc_ltb_ge; now apply pos_le). rewrite L. rewrite rv_ok by (apply mult_nonneg; [exact V|now apply pos_le]). eexists. split; [reflexivity|]. cbn [fst snd].
  rewrite !div_ok by now apply pos_neq. cbn [bind]. apply pos_neq in P. assert (A : v * n / n = v) by (field; exact P). rewrite A, rv_ok by exact V. apply ok_pair; [field; exact P|reflexivity].
Qed.
Theorem reverse_mult_back : forall X Y, E Y <> 0 -> 0 <= VAR X -> reverse_mult (E X * E Y, E Y * E Y * VAR X + E X * E X * VAR Y) Y = Ok X.
Proof.
  intros [ex vx] [ey vy] Y0 V. unfold reverse_mult, E, VAR in *. cbn [fst snd] in *. rewrite div_ok by exact Y0. cbn [bind]. rewrite div_ok by now apply square_neq. cbn [bind]. assert (A : ex * ey / ey = ex) by (field; exact Y0). rewrite A. assert (B : (ey * ey * vx + ex * ex * vy - ex * ex * vy) / (ey * ey) = vx) by (field; exact Y0). rewrite B. now apply rv_ok.
Qed.
Theorem reverse_div_back : forall X Y, E Y <> 0 -> 0 <= VAR X -> reverse_div (E X / E Y, VAR X / (E Y * E Y) + E X * E X * VAR Y / (E Y * E Y * (E Y * E Y))) Y = Ok X.
Proof.
  intros [ex vx] [ey vy] Y0 V. unfold reverse_div, E, VAR in *. cbn [fst snd] in *. rewrite div_ok by now apply square_neq. cbn [bind].
  assert (B : (vx / (ey * ey) + ex * ex * vy / (ey * ey * (ey * ey))) * ey * ey - ex / ey * ey * (ex / ey * ey) * vy / (ey * ey) = vx) by (field; exact Y0). rewrite B, rv_ok by exact V. apply ok_pair; [field; exact Y0|reflexivity].
Qed.
Theorem reverse_mult_constant : forall X c, c <> 0 -> 0 <= VAR X -> reverse_mult (scale X c) (constant c) = Ok X.
Proof.
  intros [ex vx] c C V. unfold reverse_mult, scale, constant, E, VAR in *. cbn [fst snd] in *. rewrite div_ok by exact C. cbn [bind]. rewrite div_ok by now apply square_neq. cbn [bind]. assert (A : ex * c / c = ex) by (field; exact C). rewrite A. assert (B : (vx * c * c - ex * ex * 0) / (c * c) = vx) by (field; exact C). rewrite B. now apply rv_ok.
Qed.
Theorem reverse_add_back : forall X Y, 0 <= VAR X -> reverse_add (add X Y) Y = Ok X.
Proof. intros [ex vx] [ey vy] V. unfold reverse_add, add, E, VAR in *. cbn [fst snd] in *. assert (A : vx + vy - vy = vx) by ring. rewrite A, rv_ok by exact V. apply ok_pair; [ring|reflexivity]. Qed.
Theorem selection_poisson : forall l p, 0 <= l -> 0 <= p -> p <= 1 -> exists N X, poisson l = Ok N /\ bernouilli p = Ok X /\ compound N X true = poisson (l * p).
Proof.
  intros l p L A B. unfold poisson, bernouilli. rewrite (rv_ok l l) by exact L. rewrite (rv_ok p) by (apply mult_nonneg; [exact A|qclra]). eexists _, _. split; [reflexivity|]. split; [reflexivity|]. unfold compound, E, VAR. cbn [fst snd]. f_equal. ring.
Qed.
Theorem selection_twice : forall p q N X Y Z, bernouilli p = Ok X -> bernouilli q = Ok Y -> bernouilli (p * q) = Ok Z -> 0 <= VAR N -> 0 <= E N ->
  exists M, compound N X true = Ok M /\ compound M Y true = compound N Z true.
Proof.
  intros p q [en vn] X Y Z HX HY HZ V EN. unfold bernouilli in *. apply rv_inv in HX as [-> VX]. apply rv_inv in HY as [-> VY]. apply rv_inv in HZ as [-> VZ]. unfold compound, E, VAR in *. cbn [fst snd] in *.
  rewrite rv_ok. 2: { apply add_nonneg; [|now apply mult_nonneg]. rewrite <- Qcmult_assoc. apply mult_nonneg; [exact V|apply square_nonneg]. } eexists. split; [reflexivity|]. cbn [fst snd]. f_equal; ring.
Qed.
(* a cascade is one process: the order of compounding does not matter *)
Theorem compound_assoc : forall N X Y M P, compound N X true = Ok M -> compound X Y true = Ok P -> compound M Y true = compound N P true.
Proof. intros [en vn] [ex vx] [ey vy] M P H K. unfold compound, E, VAR in *. cbn [fst snd] in *. apply rv_inv in H as [-> _]. apply rv_inv in K as [-> _]. cbn [fst snd]. f_equal; ring. Qed.

(* ---- the full-field chain ---- *)
Lemma bernouilli_ok p : probability p -> exists v, bernouilli p = Ok (p, v) /\ 0 <= v.
Proof. intros [A B]. unfold bernouilli. assert (H : 0 <= p * (1 - p)) by (apply mult_nonneg; [now apply pos_le|qclra]). eexists. split; [now apply rv_ok|exact H]. Qed.
Lemma poisson_ok g : 0 <= g -> poisson g = Ok (g, g). Proof. intros. now apply rv_ok. Qed.
Lemma compound_ok e v p w : 0 <= e -> 0 <= v -> 0 < p -> 0 <= w ->
  exists u, 0 <= u /\ compound (e, v) (p, w) true = Ok (e * p, u) /\ compound (e * p, u) (p, w) false = Ok (e, v).
Proof.
  intros A B C D. exists (v * p * p + w * e). assert (H : 0 <= v * p * p + w * e) by (apply add_nonneg; [|now apply mult_nonneg]; rewrite <- Qcmult_assoc; apply mult_nonneg; [exact B|apply square_nonneg]).
  split; [exact H|]. assert (F : compound (e, v) (p, w) true = Ok (e * p, v * p * p + w * e)) by now apply rv_ok. split; [exact F|]. apply (compound_back (e, v) (p, w)); [now apply pos_neq|exact B|exact F].
Qed.
Lemma sample_round p N : probability p -> sound N -> exists Y, sound Y /\ kind Y = kind N /\ value Y = value N * p /\ sample_propagate p N true = Ok Y /\ sample_propagate p Y false = Ok N.
Proof.
  intros P S. pose proof P as [P0 _]. destruct N as [x|[e v]].
  - exists (Plain (x * p)). cbn in S. split; [cbn; apply mult_nonneg; auto using pos_le|]. split; [reflexivity|]. split; [reflexivity|]. split; [reflexivity|]. cbn [sample_propagate]. rewrite div_ok by now apply pos_neq. cbn [bind]. apply (f_equal Ok), (f_equal Plain). field. now apply pos_neq.
  - destruct S as [A B]. destruct (bernouilli_ok p P) as (w & W & W0). destruct (compound_ok e v p w A B P0 W0) as (u & U & F & G). exists (Noisy (e * p, u)).
    split; [split; [apply mult_nonneg; auto using pos_le|exact U]|]. split; [reflexivity|]. split; [reflexivity|]. unfold sample_propagate, Noisily. rewrite W. cbn [bind]. rewrite F, G. split; reflexivity.
Qed.
Lemma steps_round p g N : probability p -> 0 < g -> sound N -> exists Y, sound Y /\ kind Y = kind N /\ value Y = value N * (p * g) /\ two_steps p g N true = Ok Y /\ two_steps p g Y false = Ok N.
Proof.
  intros P G0 S. pose proof P as [P0 _]. destruct N as [x|[e v]].
  - exists (Plain (x * (p * g))). cbn in S. assert (L : 0 <= p * g) by (apply mult_nonneg; now apply pos_le). apply pos_neq in P0. apply pos_neq in G0. assert (Z : p * g <> 0) by (intros Z; destruct (Qcmult_integral _ _ Z); contradiction).
    split; [cbn; now apply mult_nonneg|]. split; [reflexivity|]. split; [reflexivity|]. split; [reflexivity|]. cbn [two_steps]. rewrite div_ok by exact Z. cbn [bind]. apply (f_equal Ok), (f_equal Plain). field. now split.
  - destruct S as [A B]. destruct (bernouilli_ok p P) as (w & W & W0). destruct (compound_ok e v p w A B P0 W0) as (u & U & F & G). assert (A' : 0 <= e * p) by (apply mult_nonneg; auto using pos_le). destruct (compound_ok (e * p) u g g A' U G0 (pos_le _ G0)) as (u' & U' & F' & G').
    exists (Noisy (e * p * g, u')). split; [split; [apply mult_nonneg; auto using pos_le|exact U']|]. split; [reflexivity|]. split; [cbn; ring|]. unfold two_steps, Noisily. rewrite W, (poisson_ok g (pos_le _ G0)). cbn [bind]. rewrite F, G'. cbn [bind]. rewrite F', G. split; reflexivity.
Qed.
Lemma camera_forward c e v t n b : proper_camera c -> 0 <= e -> 0 <= v -> 0 <= n ->
  camera_propagate c (Noisy (e, v)) t n true b = Ok (Noisy (n * ((e * qe c + darkcurrent c * t) * etoDU c + DUoffset c),
    n * (((if b then e * qe c else v * qe c * qe c + qe c * e) + darkcurrent c * t * t + readoutnoise c * readoutnoise c) * (etoDU c * etoDU c)))).
Proof.
  intros (G & Q & D) A B N0. unfold camera_propagate, Noisily. rewrite (poisson_ok _ D), (poisson_ok _ (pos_le _ Q)). cbn [bind]. unfold compound, E, VAR. cbn [fst snd].
  assert (H0 : 0 <= e * qe c) by (apply mult_nonneg; auto using pos_le).
  assert (H1 : 0 <= v * qe c * qe c + qe c * e). { apply add_nonneg; [|apply mult_nonneg; auto using pos_le]. rewrite <- Qcmult_assoc. apply mult_nonneg; [exact B|apply square_nonneg]. }
  rewrite rv_ok by exact H1. cbn [bind]. rewrite (rv_ok (fst (e * qe c, v * qe c * qe c + qe c * e))) by exact H0. cbn [fst snd].
  assert (L : Qc_ltb n 0 = false) by now apply Qc_ltb_ge.
  set (w := if b then e * qe c else v * qe c * qe c + qe c * e). assert (W : 0 <= w) by (unfold w; destruct b; assumption).
  match goal with |- bind (bind ?x _) _ = _ => assert (K : x = Ok (e * qe c, w)) by (unfold w; destruct b; reflexivity); rewrite K; clear K end. cbn [bind].
  unfold repeat, add, scale, constant, E, VAR. rewrite L. cbn [fst snd].
  rewrite rv_ok.
  - cbn [bind]. apply (f_equal Ok), (f_equal Noisy). apply f_equal2; ring.
  - apply mult_nonneg; [|exact N0]. assert (R := square_nonneg (readoutnoise c)). assert (T := square_nonneg t). assert (V : 0 <= etoDU c * etoDU c) by apply square_nonneg.
    assert (X : 0 <= darkcurrent c * t * t) by (rewrite <- Qcmult_assoc; apply mult_nonneg; assumption).
    assert (Y : 0 <= (w + darkcurrent c * t * t + readoutnoise c * readoutnoise c) * (etoDU c * etoDU c)) by (apply mult_nonneg; [|exact V]; repeat apply add_nonneg; assumption).
    replace ((w + darkcurrent c * t * t + readoutnoise c * readoutnoise c) * etoDU c * etoDU c + 0) with ((w + darkcurrent c * t * t + readoutnoise c * readoutnoise c) * (etoDU c * etoDU c)) by ring. exact Y.
Qed.
Lemma camera_backward c e v t n : proper_camera c -> 0 <= e -> 0 <= v -> 0 < n ->
  camera_propagate c (Noisy (n * ((e * qe c + darkcurrent c * t) * etoDU c + DUoffset c),
    n * ((v * qe c * qe c + qe c * e + darkcurrent c * t * t + readoutnoise c * readoutnoise c) * (etoDU c * etoDU c)))) t n false false = Ok (Noisy (e, v)).
Proof.
  intros (G & Q & D) A B N0. unfold camera_propagate, Noisily. rewrite (poisson_ok _ D), (poisson_ok _ (pos_le _ Q)). cbn [bind]. unfold repeat, E, VAR. cbn [fst snd].
  assert (L : Qc_ltb n 0 = false) by (apply Qc_ltb_ge; now apply pos_le). rewrite L. rewrite !div_ok by now apply pos_neq. cbn [bind].
  set (w := v * qe c * qe c + qe c * e + darkcurrent c * t * t + readoutnoise c * readoutnoise c). set (m := e * qe c + darkcurrent c * t).
  assert (H1 : 0 <= v * qe c * qe c + qe c * e). { apply add_nonneg; [|apply mult_nonneg; auto using pos_le]. rewrite <- Qcmult_assoc. apply mult_nonneg; [exact B|apply square_nonneg]. }
  assert (X : 0 <= darkcurrent c * t * t) by (rewrite <- Qcmult_assoc; apply mult_nonneg; [assumption|apply square_nonneg]).
  assert (W1 : 0 <= v * qe c * qe c + qe c * e + readoutnoise c * readoutnoise c) by (apply add_nonneg; [exact H1|apply square_nonneg]).
  assert (W : 0 <= w) by (unfold w; apply add_nonneg; [apply add_nonneg; assumption|apply square_nonneg]).
  assert (V : 0 <= w * (etoDU c * etoDU c)) by (apply mult_nonneg; [exact W|apply square_nonneg]).
  apply pos_neq in N0.
  assert (R1 : n * (m * etoDU c + DUoffset c) / n = m * etoDU c + DUoffset c) by (field; exact N0). assert (R2 : n * (w * (etoDU c * etoDU c)) / n = w * (etoDU c * etoDU c)) by (field; exact N0). rewrite R1, R2, rv_ok by exact V. cbn [bind].
  unfold reverse_add at 1. unfold constant, E, VAR. cbn [fst snd]. assert (R3 : w * (etoDU c * etoDU c) - 0 = w * (etoDU c * etoDU c)) by ring. rewrite R3, rv_ok by exact V. cbn [bind].
  unfold reverse_mult, E, VAR. cbn [fst snd]. apply pos_neq in G. rewrite div_ok by exact G. cbn [bind]. rewrite div_ok by now apply square_neq. cbn [bind].
  assert (R4 : (m * etoDU c + DUoffset c - DUoffset c) / etoDU c = m) by (field; exact G). rewrite R4. assert (R5 : (w * (etoDU c * etoDU c) - m * m * 0) / (etoDU c * etoDU c) = w) by (field; exact G). rewrite R5, rv_ok by exact W. cbn [bind].
  unfold reverse_add at 1. unfold scale, E, VAR. cbn [fst snd]. assert (R6 : w - darkcurrent c * t * t = v * qe c * qe c + qe c * e + readoutnoise c * readoutnoise c) by (unfold w; ring). rewrite R6, rv_ok by exact W1. cbn [bind].
  unfold reverse_add, E, VAR. cbn [fst snd]. assert (R7 : v * qe c * qe c + qe c * e + readoutnoise c * readoutnoise c - readoutnoise c * readoutnoise c = v * qe c * qe c + qe c * e) by ring. rewrite R7, rv_ok by exact H1. cbn [bind].
  assert (R8 : m - darkcurrent c * t - 0 = e * qe c) by (unfold m; ring). rewrite R8.
  rewrite (compound_back (e, v) (qe c, qe c)); [reflexivity|now apply pos_neq|exact B|]. unfold compound, E, VAR. cbn [fst snd]. now apply rv_ok.
Qed.
Lemma camera_plain_forward c x t n b : camera_propagate c (Plain x) t n true b = Ok (Plain (n * ((x * qe c + darkcurrent c * t) * etoDU c + DUoffset c))).
Proof. reflexivity. Qed.
Lemma camera_plain_backward c x t n b : proper_camera c -> 0 < n -> camera_propagate c (Plain (n * ((x * qe c + darkcurrent c * t) * etoDU c + DUoffset c))) t n false b = Ok (Plain x).
Proof.
  intros (G & Q & D) N0. apply pos_neq in G. apply pos_neq in Q. apply pos_neq in N0. cbn [camera_propagate]. rewrite div_ok by exact N0. cbn [bind]. rewrite div_ok by exact G. cbn [bind]. rewrite div_ok by exact Q. cbn [bind]. apply (f_equal Ok), (f_equal Plain). field. auto.
Qed.
Lemma camera_round c N t n b : proper_camera c -> sound N -> 0 < n -> exists Y, camera_propagate c N t n true b = Ok Y /\ kind Y = kind N
  /\ value Y = n * ((value N * qe c + darkcurrent c * t) * etoDU c + DUoffset c) /\ (b = false -> camera_propagate c Y t n false false = Ok N).
Proof.
  intros P S N0. destruct N as [x|[e v]].
  - rewrite camera_plain_forward. eexists. split; [reflexivity|]. split; [reflexivity|]. split; [reflexivity|]. intros _. now apply camera_plain_backward.
  - destruct S as [A B]. rewrite camera_forward by (auto using pos_le). eexists. split; [reflexivity|]. split; [reflexivity|]. split; [reflexivity|]. intros ->. now apply camera_backward.
Qed.
Theorem chain_round : forall s N t n inside approx, proper_setup s -> sound N -> 0 < n -> exists Y, propagate s N t n inside true approx = Ok Y /\ kind Y = kind N
  /\ value Y = n * ((value N * factor s inside * qe (cam s) + darkcurrent (cam s) * t) * etoDU (cam s) + DUoffset (cam s))
  /\ (approx = false -> forall b, propagate s Y t n inside false b = Ok N).
Proof.
  intros s N t n i b (PS & PA & PG & PL & PY & PC) S N0. unfold propagate.
  assert (X : exists Y, sound Y /\ kind Y = kind N /\ value Y = value N * (if i then match sample s with Some p => p | None => 1 end else 1)
    /\ match sample s with Some p => if i then sample_propagate p N true else Ok N | None => Ok N end = Ok Y
    /\ match sample s with Some p => if i then sample_propagate p Y false else Ok Y | None => Ok Y end = Ok N).
  { destruct (sample s) as [p|]; [|exists N; destruct i; (split; [exact S|]; split; [reflexivity|]; split; [ring|]; split; reflexivity)]. destruct i; [now apply sample_round; [apply PS|]|]. exists N. split; [exact S|]. split; [reflexivity|]. split; [ring|]. split; reflexivity. }
  destruct X as (Y & SY & KY & VY & F & G). rewrite F. cbn [bind].
  destruct (steps_round _ _ Y PA PG SY) as (Y1 & S1 & K1 & V1 & F1 & G1). rewrite F1. cbn [bind].
  destruct (steps_round _ _ Y1 PL PY S1) as (Y2 & S2 & K2 & V2 & F2 & G2). rewrite F2. cbn [bind].
  destruct (camera_round (cam s) Y2 t n b PC S2 N0) as (Y3 & F3 & K3 & V3 & G3). exists Y3. split; [exact F3|]. split; [congruence|]. split.
  - rewrite V3, V2, V1, VY. unfold factor. destruct i; ring.
  - intros Hb _. rewrite (G3 Hb). cbn [bind]. rewrite G2. cbn [bind]. rewrite G1. cbn [bind]. exact G.
Qed.
Theorem measurement_transmission : forall s flux td nd tf nf ndark noise, proper_setup s -> 0 < flux -> 0 < td -> 0 < tf -> 0 < nd -> 0 < nf -> 0 < ndark ->
  exists N F D D0, measurement s flux td nd tf nf ndark noise = Ok (N, F, D, D0)
  /\ transmission (value N) (value F) (value D) (value D0) td nd tf nf ndark = Ok (match sample s with Some p => p | None => 1 end).
Proof.
  intros s flux td nd tf nf ndark noise P FL TD TF ND NF NK. unfold measurement.
  assert (Z : Qc_eqb ndark 0 = false) by (apply Qc_eqb_false; now apply pos_neq). rewrite Z.
  assert (PH : forall x, 0 <= x -> exists N, (if noise then Noisily (poisson x) else Ok (Plain x)) = Ok N /\ sound N /\ value N = x).
  { intros x X. destruct noise; [unfold Noisily; rewrite (poisson_ok _ X); eexists; split; [reflexivity|]; split; [split; exact X|reflexivity]|]. eexists. split; [reflexivity|]. split; [exact X|reflexivity]. }
  destruct (PH (flux * td)) as (N & EN & SN & VN); [apply mult_nonneg; auto using pos_le|]. destruct (PH (flux * tf)) as (F & EF & SF & VF); [apply mult_nonneg; auto using pos_le|].
  rewrite EN. cbn [bind]. destruct (chain_round s N td nd true false P SN ND) as (N' & EN' & _ & VN' & _). rewrite EN'. cbn [bind].
  rewrite EF. cbn [bind]. destruct (chain_round s F tf nf false false P SF NF) as (F' & EF' & _ & VF' & _). rewrite EF'. cbn [bind].
  set (zero := if noise then Noisy (0, 0) else Plain 0). assert (SZ : sound zero) by (unfold zero; destruct noise; [split|]; apply Qcle_refl). assert (VZ : value zero = 0) by (unfold zero; now destruct noise).
  pose proof P as (PS & PA & PG & PL & PY & PC).
  destruct (camera_round (cam s) zero td ndark false PC SZ NK) as (D & ED & _ & VD & _). rewrite ED. cbn [bind].
  destruct (camera_round (cam s) zero tf ndark false PC SZ NK) as (D0 & ED0 & _ & VD0 & _). rewrite ED0. cbn [bind].
  exists N', F', D, D0. split; [reflexivity|]. rewrite VN', VF', VD, VD0, VN, VF, VZ. clear EN EF EN' EF' ED ED0 VN' VF' VD VD0 VN VF VZ.
  unfold transmission. destruct PC as (G & Q & _). destruct PA as [PA _]. destruct PL as [PL _].
  apply pos_neq in G, Q, PA, PL, PG, PY, FL, TD, TF, ND, NF, NK. unfold factor.
  set (p := match sample s with Some p => p | None => 1 end). clearbody p.
  generalize dependent (absorbed s). generalize dependent (gain s). generalize dependent (lens_transmission s). generalize dependent (lightyield s). generalize dependent (qe (cam s)). generalize dependent (etoDU (cam s)). generalize (darkcurrent (cam s)) (DUoffset (cam s)). clear - FL TD TF ND NF NK. intros d off g G q Q y Y l L ga GA a A.
  assert (MN : forall x y : Qc, x <> 0 -> y <> 0 -> x * y <> 0) by (intros u w U W K; destruct (Qcmult_integral _ _ K); contradiction).
  rewrite div_ok by exact NK. cbn [bind]. rewrite div_ok by now apply MN. cbn [bind]. rewrite div_ok by exact NK. cbn [bind]. rewrite div_ok by now apply MN. cbn [bind].
  assert (R : (nf * ((flux * tf * (1 * (a * ga) * (l * y)) * q + d * tf) * g + off) - ndark * ((0 * q + d * tf) * g + off) / ndark * nf) / (nf * tf) = flux * (a * ga * (l * y)) * q * g) by (field; auto).
  rewrite R. rewrite div_ok by (repeat apply MN; assumption). apply (f_equal Ok). field. repeat split; assumption.
Qed.
Theorem nodark_fails : forall s flux td nd tf nf noise, proper_setup s -> 0 <= flux -> 0 <= td -> 0 <= tf -> 0 < nd -> 0 < nf ->
  exists N F D D0, measurement s flux td nd tf nf 0 noise = Ok (N, F, D, D0) /\ transmission (value N) (value F) (value D) (value D0) td nd tf nf 0 = Err ZeroDivisionError.
Proof.
  intros s flux td nd tf nf noise P FL TD TF ND NF. unfold measurement.
  assert (PH : forall x, 0 <= x -> exists N, (if noise then Noisily (poisson x) else Ok (Plain x)) = Ok N /\ sound N).
  { intros x X. destruct noise; [unfold Noisily; rewrite (poisson_ok _ X); eexists; split; [reflexivity|]; split; exact X|]. eexists. split; [reflexivity|]. exact X. }
  destruct (PH (flux * td)) as (N & EN & SN); [now apply mult_nonneg|]. destruct (PH (flux * tf)) as (F & EF & SF); [now apply mult_nonneg|].
  rewrite EN. cbn [bind]. destruct (chain_round s N td nd true false P SN ND) as (N' & EN' & _). rewrite EN'. cbn [bind].
  rewrite EF. cbn [bind]. destruct (chain_round s F tf nf false false P SF NF) as (F' & EF' & _). rewrite EF'. cbn [bind].
  change (Qc_eqb 0 0) with true. cbv iota. eexists _, _, _, _. split; reflexivity.
Qed.
Theorem flux_of_photons : forall s flux t n, proper_setup s -> 0 <= flux -> 0 < t -> 0 < n -> exists Y, propagate s (Plain (flux * t)) t n false true false = Ok (Plain Y) /\ fluxfromflat s Y t n = Ok flux.
Proof.
  intros s flux t n P F T N0. destruct (chain_round s (Plain (flux * t)) t n false false P) as (Y & EY & K & _ & B); [cbn; apply mult_nonneg; auto using pos_le|exact N0|]. destruct Y as [y|]; [|discriminate]. exists y. split; [exact EY|]. unfold fluxfromflat. rewrite (B eq_refl). cbn [bind]. rewrite div_ok by now apply pos_neq. apply (f_equal Ok). field. now apply pos_neq.
Qed.
Theorem flux_of_flat : forall s flux t n, proper_setup s -> 0 <= flux -> 0 < t -> 0 < n -> exists Y, flatfromflux s flux t n = Ok (Plain Y) /\ fluxfromflat s Y t n = Ok (flux / t).
Proof.
  intros s flux t n P F T N0. destruct (chain_round s (Plain flux) t n false false P F N0) as (Y & EY & K & _ & B). destruct Y as [y|]; [|discriminate]. exists y. split; [exact EY|]. unfold fluxfromflat. rewrite (B eq_refl). cbn [bind]. now rewrite div_ok by now apply pos_neq.
Qed.
(* ---- number of frames ---- *)
Lemma rounded x t : 0 < t -> let n := Z.max (ScalarModel.rint x) 1 in (1 <= n)%Z /\
  (x * t - t * ScalarModel.half <= Qc_of_Z n * t /\ Qc_of_Z n * t <= x * t + t * ScalarModel.half \/ n = 1%Z /\ x * t <= t * ScalarModel.half).
Proof.
  intros T n. split; [unfold n; lia|]. destruct (ScalarProofs.rint_bounds x) as [A B]. destruct (Z.max_spec (ScalarModel.rint x) 1) as [[L M]|[L M]]; fold n in M.
  - right. split; [exact M|]. assert (C : Qc_of_Z (ScalarModel.rint x) <= 0) by (change 0 with (Qc_of_Z 0); apply Qc_of_Z_le; lia). generalize dependent (Qc_of_Z (ScalarModel.rint x)). generalize ScalarModel.half. intros h r A B C. assert (D : x <= h) by qclra. qcnra.
  - left. rewrite M. generalize dependent (Qc_of_Z (ScalarModel.rint x)). generalize ScalarModel.half. intros h r A B. split; qcnra.
Qed.
Theorem frames : forall T td tf f nd nf, 0 < td -> getnframes T td tf f = Ok (nd, nf) -> (1 <= nd)%Z /\ (2 <= nf)%Z /\ Z.Even nf
  /\ (within (Qc_of_Z nd * td) (T * (1 - f)) (td * Q2Qc (1#2)) \/ nd = 1%Z /\ T * (1 - f) <= td * Q2Qc (1#2))
  /\ (within (Qc_of_Z nf * td) (T * f) td \/ nf = 2%Z /\ T * f <= td).
Proof.
  intros T td tf f nd nf P H. unfold getnframes in H. pose proof (pos_neq _ P) as NZ. rewrite div_ok in H by exact NZ. cbn [bind] in H. assert (D2 : Q2Qc (2#1) <> 0) by discriminate. rewrite div_ok in H by exact D2. cbn [bind] in H.
  assert (ND : nd = Z.max (ScalarModel.rint (T / td * (1 - f))) 1) by congruence. assert (NF : nf = (2 * Z.max (ScalarModel.rint (T / td * f / Q2Qc (2#1))) 1)%Z) by congruence. clear H.
  destruct (rounded (T / td * (1 - f)) td P) as [A1 B1]. destruct (rounded (T / td * f / Q2Qc (2#1)) td P) as [A2 B2]. rewrite <- ND in A1, B1. set (k := Z.max (ScalarModel.rint (T / td * f / Q2Qc (2#1))) 1) in *. clearbody k.
  split; [exact A1|]. split; [lia|]. split; [now exists k|].
  assert (E1 : T / td * (1 - f) * td = T * (1 - f)) by (field; exact NZ). rewrite E1 in B1. assert (E2 : Q2Qc (2#1) * (T / td * f / Q2Qc (2#1) * td) = T * f) by (field; split; assumption). set (y := T / td * f / Q2Qc (2#1) * td) in *. clearbody y.
  change ScalarModel.half with (Q2Qc (1#2)) in *. split; [exact B1|]. unfold within. subst nf. rewrite Qc_of_Z_mult. change (Qc_of_Z 2) with (Q2Qc (2#1)). assert (HH : Q2Qc (2#1) * Q2Qc (1#2) = 1) by (apply Qc_is_canon; reflexivity).
  destruct B2 as [[U V]|[-> U]]; [left|right; split; [reflexivity|]].
  - generalize dependent (Qc_of_Z k). intros q U V. rewrite <- E2. clear - U V. split; qclra.
  - rewrite <- E2. clear - U. qclra.
Qed.
Theorem flat_time : exists T td tf f nd nf, getnframes T td tf f = Ok (nd, nf) /\ 0 < td /\ 0 < tf /\ within f (Q2Qc (1#2)) (Q2Qc (1#4))
  /\ ~ within (Qc_of_Z nf * tf) (T * f) (T * Q2Qc (1#4)) /\ (forall tf', getnframes T td tf' f = getnframes T td tf f).
Proof.
  exists (Q2Qc (100#1)), 1, (Q2Qc (1#10)), (Q2Qc (1#2)), 50%Z, 50%Z. split; [vm_compute; reflexivity|]. split; [reflexivity|]. split; [reflexivity|]. split; [split; apply Qc_leb_le; reflexivity|]. split; [|reflexivity]. intros [A _]. apply Qc_leb_le in A. vm_compute in A. discriminate.
Qed.
Theorem dark_noise : exists c t Y P, proper_camera c /\ DUoffset c = 0 /\ readoutnoise c = 0 /\ etoDU c = 1
  /\ camera_propagate c (Noisy (0, 0)) t 1 true false = Ok (Noisy Y) /\ poisson (darkcurrent c * t) = Ok P /\ E Y = E P /\ VAR Y <> VAR P.
Proof.
  exists {| etoDU := 1; qe := 1; DUoffset := 0; darkcurrent := 1; readoutnoise := 0 |}, (Q2Qc (2#1)). eexists _, _. split; [split; [reflexivity|]; split; [reflexivity|apply Qc_leb_le; reflexivity]|]. split; [reflexivity|]. split; [reflexivity|]. split; [reflexivity|]. split; [vm_compute; reflexivity|]. split; [vm_compute; reflexivity|]. split; [vm_compute; reflexivity|vm_compute; discriminate].
Qed.
