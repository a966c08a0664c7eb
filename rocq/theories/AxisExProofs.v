(* Concrete axes for the theorems of AxisProps.v. *)
From Coq Require Import Qround.
From Verif Require Import Base BaseProofs QcTac ZList ZListProofs AxisModel AxisSpec AxisProofs AxisSegProofs AxisLimProofs.
Local Open Scope Qc_scope.

Lemma prog_small l s d : forallb (fun i => match point l i with Some v => Qc_eqb v (s + Qc_of_Z i * d) | None => false end)
  (arange (plen l)) = true -> progression l s d (plen l).
Proof.
  intros H. split; [reflexivity|]. intros i Hi. rewrite forallb_forall in H.
  specialize (H i (proj2 (In_arange _ _) Hi)). destruct (point l i); [|discriminate]. qc_bool. now subst.
Qed.

Lemma ex_monotonic : monotonic [Qc_of_Z 5; Qc_of_Z 3; Qc_of_Z 2].
Proof.
  right. intros i j x y Hij Hi Hj.
  assert (Bi : (0 <= i < 3)%Z). { destruct (Z.lt_ge_cases i 0); [|destruct (Z.lt_ge_cases i 3); [lia|]];
    rewrite (proj2 (point_none _ i)) in Hi; try discriminate; unfold plen; cbn; lia. }
  assert (Bj : (0 <= j < 3)%Z). { destruct (Z.lt_ge_cases j 0); [|destruct (Z.lt_ge_cases j 3); [lia|]];
    rewrite (proj2 (point_none _ j)) in Hj; try discriminate; unfold plen; cbn; lia. }
  assert (i = 0 /\ j = 1 \/ i = 0 /\ j = 2 \/ i = 1 /\ j = 2)%Z as [[-> ->]|[[-> ->]|[-> ->]]] by lia;
  unfold point in Hi, Hj; cbn [Z.ltb Z.compare Z.to_nat Pos.to_nat Pos.iter_op Nat.add nth_error] in Hi, Hj;
  apply some_inj in Hi, Hj; subst; apply Qc_ltb_lt; reflexivity.
Qed.
Lemma size_grows a s e d n v : a_form a = Regular s e d n -> (1 <= n)%Z ->
  exists b, apply_op a (SetStart v) = Ok b /\ a_size b = (a_size a + 1)%Z.
Proof.
  intros F Hn. unfold apply_op. rewrite F. destruct (make_regular_form (a_precision a) v e n Hn) as (b & E & _ & G & _).
  exists b. split; [exact E|]. unfold a_size. rewrite F, G. reflexivity.
Qed.
Lemma size_grows_inc a s e d n v : a_form a = RegularInc s e d n -> (0 <= n)%Z ->
  exists b, apply_op a (SetStep v) = Ok b /\ a_size b = (a_size a + 1)%Z.
Proof.
  intros F Hn. unfold apply_op. rewrite F. destruct (make_inc_form (a_precision a) s v n Hn) as (b & E & _ & G & _).
  exists b. split; [exact E|]. unfold a_size. rewrite F, G. reflexivity.
Qed.
Lemma step_ignored : exists a b x0 x1, make_regular 0 0 (Qc_of_Z 2) 2 = Ok a /\ apply_op a (SetStep (Qc_of_Z 5)) = Ok b /\
  start_stepsize b = Ok (Qc_of_Z 5) /\ point (a_values b) 0 = Some x0 /\ point (a_values b) 1 = Some x1 /\ x1 - x0 = 1.
Proof.
  do 4 eexists. split; [reflexivity|]. split; [reflexivity|]. split; [reflexivity|]. split; [reflexivity|]. split; [reflexivity|].
  apply Qc_eqb_spec. reflexivity.
Qed.
Lemma zap start stop n : (1 <= n)%Z -> exists a, zapscan start stop n = Ok a /\
  progression (a_values a) (start + (stop - start) / Qc_of_Z n / Qc_of_Z 2) ((stop - start) / Qc_of_Z n) n.
Proof.
  intros H. unfold zapscan. destruct (Z.eqb_spec n 0); [lia|].
  destruct (make_inc_form 0 (start + (stop - start) / Qc_of_Z n / Qc_of_Z 2) ((stop - start) / Qc_of_Z n) (n - 1) ltac:(lia))
    as (a & E & _ & _ & P & _). exists a. split; [exact E|]. replace (n - 1 + 1)%Z with n in P by lia. exact P.
Qed.
Lemma endstep_one : exists a, make_segments 0 [0; Qc_of_Z 4] [2%Z] = Ok a /\ end_stepsize a = Err IndexError /\
  newend a (Qc_of_Z 5) = Err IndexError.
Proof. eexists. split; [reflexivity|]. split; reflexivity. Qed.
Lemma endstep_three : exists a d x y, make_segments 0 [0; 1; Qc_of_Z 2; Qc_of_Z 6] [1; 1; 1]%Z = Ok a /\
  end_stepsize a = Ok d /\ point (a_values a) 2 = Some x /\ point (a_values a) 3 = Some y /\ d <> y - x.
Proof.
  do 4 eexists. split; [reflexivity|]. split; [reflexivity|]. split; [reflexivity|]. split; [reflexivity|].
  apply Qc_eqb_false. reflexivity.
Qed.
Lemma single_left : exists a, make_regular 0 0 (Qc_of_Z 2) 2 = Ok a /\ newlimits a (Qc_of_Z 2) (Qc_of_Z 5) = Err OverflowError.
Proof. eexists. split; reflexivity. Qed.
Lemma simplify_far : exists b x y, simplify (make_plain 1 [0; 0; 1; Qc_of_Z 3; Qc_of_Z 6]) = Ok b /\
  point (a_values b) 2 = Some x /\ point [0; 0; 1; Qc_of_Z 3; Qc_of_Z 6] 2 = Some y /\ 1 < Qc_abs (x - y).
Proof.
  do 3 eexists. split; [reflexivity|]. split; [reflexivity|]. split; [reflexivity|]. apply Qc_ltb_lt. reflexivity.
Qed.
Lemma eq_asym : axis_eq 1 [Some 0] [Some 1] = Ok true /\ axis_eq 0 [Some 1] [Some 0] = Ok false.
Proof. split; reflexivity. Qed.
Lemma locate_own b arr v k : monotonic arr -> point arr k = Some (num_val v) -> locate b arr (TOne v) false = Ok (LOne k).
Proof.
  intros M P. assert (N : arr <> []) by (intros ->; rewrite point_nil in P; discriminate).
  destruct (locate_one b arr v false N ltac:(discriminate)) as (k' & E & F). rewrite E. do 2 f_equal.
  apply (first_nearest_unique arr (num_val v)); [exact F|]. apply own_nearest; [apply monotonic_distinct, M|exact P].
Qed.
Lemma nth_error_ext {A} (l : list A) : forall l', (forall j, nth_error l j = nth_error l' j) -> l = l'.
Proof.
  induction l as [|a l IH]; intros [|b l'] H; [reflexivity|specialize (H 0%nat); discriminate|specialize (H 0%nat); discriminate|].
  f_equal; [specialize (H 0%nat); cbn in H; congruence|]. apply IH. intros j. apply (H (S j)).
Qed.
Lemma set_stepsizes_ok p limits ns st0 vs0 st : ns <> [] -> length limits = S (length ns) ->
  Forall (fun n => 1 <= n)%Z ns -> length st = length ns ->
  (forall j n s e d, nth_error ns j = Some n -> nth_error limits j = Some s -> nth_error limits (S j) = Some e ->
     nth_error st j = Some d -> d <> 0 /\ e - s = Qc_of_Z n * d) ->
  forall ns0, exists vs, set_stepsizes (Axis (Segments limits ns0 st0) vs0 p) st = Ok (Axis (Segments limits ns st) vs p) /\
    plen vs = (zsum ns + 1)%Z.
Proof.
  intros N L F Ls H ns0. unfold set_stepsizes. cbn [a_form a_precision].
  rewrite (steps_of_sizes_ok limits st ns L Ls H). cbn [bind].
  destruct (segments_ok p limits ns N L F) as (st' & vs & E & Ls' & Lv & G). exists vs. split; [|exact Lv].
  rewrite E. do 3 f_equal. apply nth_error_ext. intros j. destruct (nth_error ns j) as [n|] eqn:En.
  - assert (Hj : (j < length ns)%nat) by (apply nth_error_Some; congruence).
    destruct (nth_error limits j) as [s|] eqn:Es; [|apply nth_error_None in Es; lia].
    destruct (nth_error limits (S j)) as [e|] eqn:Ee; [|apply nth_error_None in Ee; lia].
    destruct (nth_error st j) as [d|] eqn:Ed; [|apply nth_error_None in Ed; lia].
    destruct (G j n s e En Es Ee) as (d' & D1 & D2 & _). rewrite D1. f_equal.
    destruct (H j n s e d En Es Ee Ed) as (Nd & Hd). rewrite D2, Hd.
    assert (Nz : Qc_of_Z n <> 0). { apply Qc_of_Z_nz. rewrite Forall_forall in F. apply nth_error_In in En. specialize (F n En). lia. }
    field. exact Nz.
  - apply nth_error_None in En. transitivity (@None Qc); [|symmetry]; apply nth_error_None; lia.
Qed.
Lemma ex_regular : exists a, make_regular 0 0 (Qc_of_Z 3) 3 = Ok a /\ regular_axis a 0 1 4 /\
  (Qc_of_Z 1 - (0 + Qc_of_Z (4 - 1) * 1)) / 1 < 0.
Proof.
  destruct (make_regular_form 0 0 (Qc_of_Z 3) 3 ltac:(lia)) as (a & E & _ & F & P & Q). exists a.
  replace ((Qc_of_Z 3 - 0) / Qc_of_Z 3) with 1 in * by (apply Qc_is_canon; reflexivity).
  split; [exact E|]. split; [|apply Qc_ltb_lt; reflexivity].
  split; [exact P|]. split; [lia|]. split; [apply Qc_eqb_false; reflexivity|]. rewrite F. auto.
Qed.
