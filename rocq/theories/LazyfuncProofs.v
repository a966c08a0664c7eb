From Verif Require Import Base BaseProofs LazyfuncModel LazyfuncSpec.
From Coq Require Import String.
Section P.
Variables V Args : Type.
Variable binary : binop -> V -> V -> result V.
Variable unary : unop -> V -> result V.
Variable show : V -> string.
Variable false_ : V.
Notation build := (build V Args binary unary show false_).
Notation called := (called V Args).
Notation value := (value binary unary).
Notation operate := (operate V Args binary show).
Definition isfun (o : obj V Args) : bool := match o with Val _ => false | Fun _ _ => true end.

Lemma left_isfun op a b o : left_method V Args binary show op a b = Ok o -> isfun o = true.
Proof. destruct op; cbn [left_method]; now intros [= <-]. Qed.
Lemma operate_isfun op a b o : operate op a b = Ok o -> isfun o = isfun a || isfun b.
Proof.
  destruct a as [x|f n]; [destruct b as [y|g m]|]; cbn [LazyfuncModel.operate isfun orb]; intros H.
  - destruct (binary op x y); [|discriminate]. now injection H as <-.
  - destruct op; cbn [right_method] in H; try discriminate; try (now injection H as <-); now apply left_isfun in H.
  - now apply left_isfun in H.
Qed.
Lemma build_isfun x o : build x = Ok o -> supported x = true -> isfun o = lazy x.
Proof.
  revert o. induction x as [o'|op a IHa b IHb|op a IHa]; intros o H HS.
  - injection H as <-. now destruct o'.
  - cbn [LazyfuncModel.build] in H. destruct (build a) as [u|] eqn:Ea; [|discriminate]. cbn [bind] in H. destruct (build b) as [v|] eqn:Eb; [|discriminate]. cbn [bind] in H.
    cbn [supported] in HS. apply andb_prop in HS as [HS HO]. apply andb_prop in HS as [Sa Sb]. rewrite (operate_isfun _ _ _ _ H).
    cbn [lazy]. now rewrite (IHa u eq_refl Sa), (IHb v eq_refl Sb).
  - cbn [LazyfuncModel.build] in H. destruct (build a) as [u|] eqn:Ea; [|discriminate]. cbn [bind] in H.
    cbn [supported] in HS. apply andb_prop in HS as [Sa HO]. cbn [lazy]. rewrite <- (IHa u eq_refl Sa) in *. destruct u as [x|f n]; cbn [operate1] in H.
    + destruct (unary op x); [|discriminate]. now injection H as <-.
    + destruct op; (now injection H as <-) || discriminate.
Qed.
Lemma left_meaning op a b o args : left_method V Args binary show op a b = Ok o ->
  called o args = (let! x := called a args in let! y := called b args in binary op x y).
Proof. destruct op; cbn [left_method]; intros [= <-]; reflexivity. Qed.
Lemma operate_meaning op a b o args : mirrored binary -> operate op a b = Ok o -> (op = Divmod -> isfun a || isfun b = false) ->
  called o args = (let! x := called a args in let! y := called b args in binary op x y).
Proof.
  intros HM H D. destruct a as [x|f n].
  - destruct b as [y|g m]; cbn [LazyfuncModel.operate] in H.
    + destruct (binary op x y) as [z|] eqn:E; [|discriminate]. injection H as <-. cbn. now rewrite E.
    + destruct op; cbn [right_method] in H; try (injection H as <-; reflexivity); try discriminate;
        try (now specialize (D eq_refl));
        rewrite (left_meaning _ _ _ _ args H); cbn; destruct (g args) as [y|]; cbn; try reflexivity;
        symmetry; now apply HM.
  - cbn [LazyfuncModel.operate] in H. exact (left_meaning _ _ _ _ args H).
Qed.
Lemma build_lazy x o args : build x = Ok o -> supported x = true -> mirrored binary -> called o args = value args x.
Proof.
  intros H HS HM. revert o H HS. induction x as [o'|op a IHa b IHb|op a IHa]; intros o H HS.
  - injection H as <-. destruct o'; reflexivity.
  - cbn [LazyfuncModel.build] in H. destruct (build a) as [u|] eqn:Ea; [|discriminate]. cbn [bind] in H. destruct (build b) as [v|] eqn:Eb; [|discriminate]. cbn [bind] in H.
    cbn [supported] in HS. apply andb_prop in HS as [HS HO]. apply andb_prop in HS as [Sa Sb].
    assert (D : op = Divmod -> isfun u || isfun v = false).
    { intros ->. rewrite (build_isfun a u Ea Sa), (build_isfun b v Eb Sb). now apply negb_true_iff in HO. }
    rewrite (operate_meaning op u v o args HM H D). cbn [LazyfuncSpec.value]. now rewrite (IHa u eq_refl Sa), (IHb v eq_refl Sb).
  - cbn [LazyfuncModel.build] in H. destruct (build a) as [u|] eqn:Ea; [|discriminate]. cbn [bind] in H.
    cbn [supported] in HS. apply andb_prop in HS as [Sa HO]. assert (Va := IHa u eq_refl Sa). cbn [LazyfuncSpec.value].
    rewrite <- (build_isfun a u Ea Sa) in HO.
    destruct u as [x|f n]; cbn [operate1] in H.
    + destruct (unary op x) as [z|] eqn:E; [|discriminate]. injection H as <-. rewrite <- Va. cbn. now rewrite E.
    + destruct op; try (injection H as <-; rewrite <- Va; reflexivity). discriminate.
Qed.
(* no lazy function: the value is computed at once *)
Lemma build_eager x args : lazy x = false -> build x = (let! v := value args x in Ok (Val v)).
Proof.
  induction x as [o|op a IHa b IHb|op a IHa]; cbn [lazy LazyfuncModel.build LazyfuncSpec.value]; intros H.
  - now destruct o.
  - apply orb_false_elim in H as [Ha Hb]. rewrite (IHa Ha), (IHb Hb). destruct (value args a) as [x|]; [|reflexivity]. cbn [bind].
    destruct (value args b) as [y|]; [|reflexivity]. reflexivity.
  - rewrite (IHa H). destruct (value args a) as [x|]; reflexivity.
Qed.
(* supported expressions fail when they are built only because of a part without lazy functions *)
Lemma build_fails x e args : supported x = true -> build x = Err e -> mirrored binary -> exists e', value args x = Err e'.
Proof.
  intros HS H HM. revert e HS H. induction x as [o|op a IHa b IHb|op a IHa]; intros e HS H.
  - discriminate.
  - cbn [supported] in HS. apply andb_prop in HS as [HS HO]. apply andb_prop in HS as [Sa Sb]. cbn [LazyfuncModel.build] in H. cbn [LazyfuncSpec.value].
    destruct (build a) as [u|e1] eqn:Ea; [|destruct (IHa e1 Sa eq_refl) as [e' ->]; now eexists]. cbn [bind] in H.
    destruct (build b) as [v|e1] eqn:Eb; [|destruct (IHb e1 Sb eq_refl) as [e' ->]; destruct (value args a); now eexists]. cbn [bind] in H.
    rewrite <- (build_isfun a u Ea Sa), <- (build_isfun b v Eb Sb) in HO.
    rewrite <- (build_lazy a u args Ea Sa HM), <- (build_lazy b v args Eb Sb HM).
    destruct u as [x|f n], v as [y|g m]; cbn [LazyfuncModel.operate] in H.
    + cbn. destruct (binary op x y); [discriminate|now eexists].
    + destruct op; discriminate.
    + destruct op; discriminate.
    + destruct op; discriminate.
  - cbn [supported] in HS. apply andb_prop in HS as [Sa HO]. cbn [LazyfuncModel.build] in H. cbn [LazyfuncSpec.value].
    destruct (build a) as [u|e1] eqn:Ea; [|destruct (IHa e1 Sa eq_refl) as [e' ->]; now eexists]. cbn [bind] in H.
    rewrite <- (build_lazy a u args Ea Sa HM). destruct u as [x|f n]; cbn [operate1] in H.
    + cbn. destruct (unary op x); [discriminate|now eexists].
    + destruct op; discriminate.
Qed.
Lemma divmod_lazy f n (o : obj V Args) v :
  build (Bin Divmod (Leaf (Fun f n)) (Leaf o)) = Err AttributeError /\
  exists h, build (Bin Divmod (Leaf (Val v)) (Leaf (Fun f n))) = Ok (Fun h ("divmod(" ++ show v ++ "," ++ n ++ ")")%string) /\
    forall args, h args = (let! x := f args in binary Modulo v x).
Proof. split; [reflexivity|]. eexists. split; [reflexivity|]. reflexivity. Qed.
Lemma and_lazy (f : Args -> result V) n v op : op = And_ \/ op = Or_ -> build (Bin op (Leaf (Val v)) (Leaf (Fun f n))) = Err TypeError.
Proof. intros [-> | ->]; reflexivity. Qed.
Lemma not_lazy (f : Args -> result V) n : build (Un Not (Leaf (Fun f n))) = Ok (Val false_).
Proof. reflexivity. Qed.
Local Open Scope string_scope. Local Open Scope list_scope.
Lemma build_name f n (a b : expression V Args) u v op s :
  In (op, s) [(Mul, "*"); (Truediv, "/"); (Floordiv, "//"); (Modulo, "%"); (Add, "+"); (Sub, "-"); (Pow, "^"); (Lt, "<"); (Le, "<=");
              (Gt, ">"); (Ge, ">="); (Eq_, "=="); (Ne, "!=")] ->
  build a = Ok u -> build b = Ok v -> build (Bin op a b) = Ok (Fun f n) ->
  (n = "(" ++ str V Args show u ++ s ++ str V Args show v ++ ")" \/
  (exists x op' s', u = Val x /\ opposite op = Some op' /\ In (op', s') [(Lt, "<"); (Le, "<="); (Gt, ">"); (Ge, ">="); (Eq_, "=="); (Ne, "!=")] /\
     n = "(" ++ str V Args show v ++ s' ++ show x ++ ")"))%string.
Proof.
  intros I Ea Eb H. cbn [LazyfuncModel.build] in H. rewrite Ea, Eb in H. cbn [bind] in H.
  destruct u as [x|fu nu].
  - destruct v as [y|fv nv]; cbn [LazyfuncModel.operate] in H; [destruct (binary op x y); discriminate|].
    repeat (destruct I as [I|I]; [injection I as <- <-; cbn in H; injection H as _ <-;
      (left; reflexivity) || (right; do 3 eexists; split; [reflexivity|]; split; [reflexivity|]; split; [cbn; tauto|reflexivity])|]). destruct I.
  - cbn [LazyfuncModel.operate] in H.
    repeat (destruct I as [I|I]; [injection I as <- <-; cbn in H; injection H as _ <-; left; reflexivity|]). destruct I.
Qed.
End P.
