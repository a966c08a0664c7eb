From Verif Require Export SumdetSpec BaseProofs.
Local Open Scope list_scope.
Local Open Scope nat_scope.

Lemma appendarg_merged {A} f (l : list (arg A)) a : appendarg f l a = Slice f (l ++ merged f a).
Proof. destruct a as [x|g m]; cbn; [reflexivity|]. unfold merge. destruct (fn_eqb f g); cbn [andb]; [|reflexivity]. destruct (samemerge f); reflexivity. Qed.
Lemma mapM_app {A B} (f : A -> result B) l m : mapM f (l ++ m) = (let! a := mapM f l in let! b := mapM f m in Ok (a ++ b)).
Proof.
  induction l as [|x l IH]; cbn [app mapM bind]; [destruct (mapM f m); reflexivity|]. destruct (f x); cbn [bind]; [|reflexivity]. rewrite IH.
  destruct (mapM f l); cbn [bind]; [|reflexivity]. destruct (mapM f m); reflexivity.
Qed.
Lemma n_add_assoc a b c : n_add (n_add a b) c = n_add a (n_add b c).
Proof. destruct a, b, c; cbn; try reflexivity. f_equal. ring. Qed.
Lemma n_add_0_l a : n_add (Fin 0) a = a.
Proof. destruct a; cbn; try reflexivity. f_equal. ring. Qed.
Lemma n_add_0_r a : n_add a (Fin 0) = a.
Proof. destruct a; cbn; try reflexivity. f_equal. ring. Qed.
Lemma fold_n_add l x : fold_left n_add l x = n_add x (n_sum l).
Proof.
  unfold n_sum. revert x. induction l as [|y l IH]; intro x; cbn [fold_left]; [symmetry; apply n_add_0_r|].
  rewrite IH, (IH (n_add (Fin 0) y)), n_add_0_l. apply n_add_assoc.
Qed.
Lemma n_sum_app l m : n_sum (l ++ m) = n_add (n_sum l) (n_sum m).
Proof. unfold n_sum at 1. rewrite fold_left_app. fold (n_sum l). apply fold_n_add. Qed.
Lemma n_sum_one x : n_sum [x] = x.
Proof. unfold n_sum. cbn [fold_left]. apply n_add_0_l. Qed.
Lemma nums_app l m : nums (l ++ m) = nums l ++ nums m.
Proof. apply filter_app. Qed.
Lemma finite_sum l : Forall finite_or_nan l -> exists q, n_sum (nums l) = Fin q.
Proof.
  induction 1 as [|x l Hx H [q IH]]; [exists 0%Qc; reflexivity|]. change (x :: l) with ([x] ++ l). rewrite nums_app, n_sum_app, IH.
  destruct x; try contradiction; cbn; eexists; reflexivity.
Qed.
(* nanmax *)
Lemma nums_nums l : nums (nums l) = nums l.
Proof. unfold nums. induction l as [|x l IH]; [reflexivity|]. cbn [filter]. destruct (negb (is_nan x)) eqn:E; [|exact IH]. cbn [filter]. rewrite E, IH. reflexivity. Qed.
Definition no_nan (x : num) : Prop := is_nan x = false.
Lemma n_ltb_trans_max a b c : no_nan a -> no_nan b -> no_nan c -> n_max (n_max a b) c = n_max a (n_max b c).
Proof.
  unfold n_max, no_nan. destruct a, b, c; cbn; intros; try discriminate; try reflexivity;
  repeat match goal with
  | |- context [Qc_ltb ?x ?y] => let E := fresh "E" in destruct (Qc_ltb x y) eqn:E; cbn
  end; try reflexivity;
  repeat match goal with
  | H : Qc_ltb _ _ = true |- _ => apply Qc_ltb_lt in H
  | H : Qc_ltb ?x ?y = false |- _ => assert (~ (x < y)%Qc) by (intro; assert (Qc_ltb x y = true) by (apply Qc_ltb_lt; assumption); congruence); clear H
  end; try (exfalso; qclra); try (f_equal; qclra).
Qed.
Lemma n_max_nan a b : no_nan a -> no_nan b -> no_nan (n_max a b).
Proof. unfold n_max. destruct (n_ltb a b); auto. Qed.
Lemma fold_max_nan l x : Forall no_nan l -> no_nan x -> no_nan (fold_left n_max l x).
Proof. revert x. induction l as [|y l IH]; intros x H Hx; [exact Hx|]. inversion H; subst. cbn [fold_left]. apply IH; [assumption|]. apply n_max_nan; assumption. Qed.
Lemma fold_max l x y : Forall no_nan l -> no_nan x -> no_nan y -> fold_left n_max l (n_max x y) = n_max x (fold_left n_max l y).
Proof.
  revert y. induction l as [|z l IH]; intros y H Hx Hy; [reflexivity|]. inversion H; subst. cbn [fold_left].
  rewrite n_ltb_trans_max by assumption. apply IH; [assumption|assumption|apply n_max_nan; assumption].
Qed.
Lemma nums_no_nan l : Forall no_nan (nums l).
Proof.
  apply Forall_forall. intros x Hx. apply filter_In in Hx. destruct Hx as [_ Hx]. unfold no_nan. destruct (is_nan x); [discriminate|reflexivity].
Qed.
Lemma nanmax_nested l m x : m <> [] -> nanmax m = Ok x -> nanmax (l ++ m) = nanmax (l ++ [x]).
Proof.
  intros Hm Hx. destruct m as [|m0 m']; [contradiction|]. set (m := m0 :: m') in *.
  assert (forall l', l ++ l' <> [] -> nanmax (l ++ l') = match nums (l ++ l') with [] => Ok NaN | y :: r => Ok (fold_left n_max r y) end) as U.
  { intros l' N. unfold nanmax. destruct (l ++ l'); [contradiction|reflexivity]. }
  rewrite U by (subst m; destruct l; discriminate). rewrite U by (destruct l; discriminate). rewrite !nums_app.
  assert (match nums m with [] => Ok NaN | y :: r => Ok (fold_left n_max r y) end = Ok x) as Hx' by exact Hx. clear Hx U.
  pose proof (nums_no_nan l) as Nl. pose proof (nums_no_nan m) as Nm. destruct (nums m) as [|y r].
  - assert (x = NaN) as -> by congruence. cbn [nums filter is_nan negb]. reflexivity.
  - inversion Nm; subst. assert (x = fold_left n_max r y) as -> by congruence.
    assert (no_nan (fold_left n_max r y)) as Nx by (apply fold_max_nan; assumption).
    unfold nums at 3. cbn [filter]. unfold no_nan in Nx. rewrite Nx. cbn [negb].
    destruct (nums l) as [|z t]; [reflexivity|]. inversion Nl; subst. cbn [app]. f_equal. rewrite !fold_left_app. cbn [fold_left].
    apply fold_max; [assumption|apply fold_max_nan; assumption|assumption].
Qed.

Section Values.
Variable A : Type.
Variable leaf : A -> result num.
Variable fluxref flux : nat -> result num.
Variable dtcor : nat -> Z -> num.
Variable other : nat -> list num -> result num.
Notation value := (eval A leaf fluxref flux dtcor other).
Notation app_fn := (apply fluxref flux dtcor other).
Lemma eval_slice f l : value (Slice f l) = (let! xs := mapM value l in app_fn f xs).
Proof. reflexivity. Qed.
(* merging: the sum of sums *)
Lemma merge_sum l m : value (appendarg Fsum l (Slice Fsum m)) = value (Slice Fsum (l ++ [Slice Fsum m])).
Proof.
  rewrite appendarg_merged, !eval_slice, !mapM_app. cbn [merged fn_eqb samemerge andb]. cbn [mapM].
  destruct (mapM value l) as [xs|e]; cbn [bind]; [|reflexivity]. rewrite eval_slice. destruct (mapM value m) as [ys|e]; cbn [bind]; [|reflexivity].
  cbn [apply bind]. rewrite !n_sum_app, n_sum_one. reflexivity.
Qed.
Lemma merge_max l m : m <> [] -> value (appendarg Fnanmax l (Slice Fnanmax m)) = value (Slice Fnanmax (l ++ [Slice Fnanmax m])).
Proof.
  intro Hm. rewrite appendarg_merged, !eval_slice, !mapM_app. cbn [merged fn_eqb samemerge andb]. cbn [mapM].
  destruct (mapM value l) as [xs|e]; cbn [bind]; [|reflexivity]. rewrite eval_slice. destruct (mapM value m) as [ys|e] eqn:E; cbn [bind]; [|reflexivity].
  cbn [apply]. assert (ys <> []) as Ny. { destruct m as [|a m]; [contradiction|]. cbn [mapM] in E. destruct (value a); [|discriminate]. cbn [bind] in E. destruct (mapM value m); [|discriminate]. intros ->. discriminate. }
  destruct (nanmax ys) as [x|] eqn:Ex; [|destruct ys; [contradiction|]; unfold nanmax in Ex; destruct (nums (n :: ys)); discriminate].
  cbn [bind]. apply nanmax_nested; assumption.
Qed.
Lemma merge_nansum l m ys : mapM value m = Ok ys -> Forall finite_or_nan ys ->
  value (appendarg Fnansum l (Slice Fnansum m)) = value (Slice Fnansum (l ++ [Slice Fnansum m])).
Proof.
  intros E F. rewrite appendarg_merged, !eval_slice, !mapM_app. cbn [merged fn_eqb samemerge andb]. cbn [mapM].
  destruct (mapM value l) as [xs|e]; cbn [bind]; [|reflexivity]. rewrite eval_slice, E. cbn [bind apply].
  destruct (finite_sum ys F) as [q Hq]. rewrite !nums_app, !n_sum_app, Hq. change (nums [Fin q]) with [Fin q]. rewrite n_sum_one. reflexivity.
Qed.
(* a function of expressions of which none is merged, or a sum *)
Lemma value_merged f l xs : Forall2 (fun a x => value a = Ok x) l xs -> f = Fsum \/ Forall (fun a => merged f a = [a]) l ->
  value (Slice f (flat_map (merged f) l)) = app_fn f xs.
Proof.
  intros H [-> |N].
  - rewrite eval_slice. assert (exists ys, mapM value (flat_map (merged Fsum) l) = Ok ys /\ n_sum ys = n_sum xs) as (ys & -> & E).
    { induction H as [|a x l xs Hx H (ys & IH & E)]; [exists []; split; reflexivity|]. cbn [flat_map]. rewrite mapM_app.
      assert (exists zs, mapM value (merged Fsum a) = Ok zs /\ n_sum zs = x) as (zs & Ez & Sz).
      { destruct a as [b|g m]; cbn [merged]; [exists [x]; cbn [mapM]; rewrite Hx; cbn [bind]; split; [reflexivity|apply n_sum_one]|].
        destruct (fn_eqb Fsum g && samemerge Fsum) eqn:G; [|exists [x]; cbn [mapM]; rewrite Hx; cbn [bind]; split; [reflexivity|apply n_sum_one]].
        destruct g; try discriminate. rewrite eval_slice in Hx. destruct (mapM value m) as [zs|]; [|discriminate]. exists zs. split; [reflexivity|]. cbn [bind apply] in Hx. congruence. }
      rewrite Ez, IH. cbn [bind]. exists (zs ++ ys). split; [reflexivity|]. rewrite n_sum_app, E, Sz. change (x :: xs) with ([x] ++ xs). rewrite n_sum_app, n_sum_one. reflexivity. }
    cbn [bind apply]. rewrite E. reflexivity.
  - assert (flat_map (merged f) l = l) as ->. { clear H. induction N as [|a l Ha N IH]; [reflexivity|]. cbn [flat_map]. rewrite Ha, IH. reflexivity. }
    rewrite eval_slice. assert (mapM value l = Ok xs) as ->; [|reflexivity]. clear N. induction H as [|a x l xs Hx H IH]; [reflexivity|]. cbn [mapM]. rewrite Hx, IH. reflexivity.
Qed.
Lemma appended f l m : fold_left (fun e a => match e with Slice g m => appendarg g m a | Leaf _ => e end) l (Slice f m) = @Slice A f (m ++ flat_map (merged f) l).
Proof.
  revert m. induction l as [|a l IH]; intro m; cbn [fold_left flat_map]; [rewrite app_nil_r; reflexivity|]. rewrite appendarg_merged, IH, app_assoc. reflexivity.
Qed.
Lemma appended_value f l xs : Forall2 (fun a x => value a = Ok x) l xs -> f = Fsum \/ Forall (fun a => merged f a = [a]) l ->
  fold_left (fun e a => match e with Slice g m => appendarg g m a | Leaf _ => e end) l (Slice f []) = Slice f (flat_map (merged f) l) /\
  value (Slice f (flat_map (merged f) l)) = app_fn f xs.
Proof. intros H1 H2. split; [apply appended|apply value_merged; assumption]. Qed.
End Values.
Lemma mean_of_means : let value := eval num Ok (fun _ => Ok NaN) (fun _ => Ok NaN) (fun _ _ => NaN) (fun _ _ => Ok NaN) in
  let m := Slice Fnanmean [Leaf (Fin (Qc_of_Z 2)); Leaf (Fin (Qc_of_Z 3))] in
  value (appendarg Fnanmean [Leaf (Fin 1)] m) = Ok (Fin (Qc_of_Z 2)) /\ value (Slice Fnanmean [Leaf (Fin 1); m]) = Ok (Fin (Qc_of_Z 7 / Qc_of_Z 4)) /\ Qc_of_Z 2 <> (Qc_of_Z 7 / Qc_of_Z 4)%Qc.
Proof.
  cbn zeta. split; [vm_compute; do 2 f_equal; apply Qc_is_canon; vm_compute; reflexivity|]. split; [vm_compute; do 2 f_equal; apply Qc_is_canon; vm_compute; reflexivity|].
  intro H. assert (Qc_eqb (Qc_of_Z 2) (Qc_of_Z 7 / Qc_of_Z 4) = true) as E by (apply Qc_eqb_spec; exact H). vm_compute in E. discriminate.
Qed.
Lemma sum_of_infinities : let value := eval num Ok (fun _ => Ok NaN) (fun _ => Ok NaN) (fun _ _ => NaN) (fun _ _ => Ok NaN) in
  let m := Slice Fnansum [Leaf PInf; Leaf NInf] in
  value (appendarg Fnansum [Leaf (Fin 1)] m) = Ok NaN /\ value (Slice Fnansum [Leaf (Fin 1); m]) = Ok (Fin 1).
Proof. cbn zeta. split; [reflexivity|]. vm_compute. do 2 f_equal; apply Qc_is_canon; vm_compute; reflexivity. Qed.
