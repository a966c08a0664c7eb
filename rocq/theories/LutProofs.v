From Verif Require Import BaseProofs ListToolsProofs LutModel LutSpec.
Local Open Scope Qc_scope.

Lemma Qc_eqb_decides : decides_eq Qc_eqb.
Proof. intros x y. apply Qc_eqb_spec. Qed.

Lemma Qc_leb_total x y : Qc_leb x y = true \/ Qc_leb y x = true.
Proof.
  destruct (Qc_leb x y) eqn:E; auto. right. qc_bool. apply Qc_leb_le. qclra.
Qed.
Lemma Qc_leb_trans x y z : Qc_leb x y = true -> Qc_leb y z = true -> Qc_leb x z = true.
Proof. rewrite !Qc_leb_le. intros. qclra. Qed.

Lemma sum_fold l a : fold_left Qcplus l a = a + sum l.
Proof.
  revert a; induction l as [|b l IH]; intros a; cbn; [ring|]. rewrite IH. ring.
Qed.

Lemma sum_app l l' : sum (l ++ l') = sum l + sum l'.
Proof. induction l as [|a l IH]; cbn; [ring|]. rewrite IH. ring. Qed.

Lemma values_of_app {A B} (eqb : A -> A -> bool) x (l l' : list (A * B)) :
  values_of eqb x (l ++ l') = values_of eqb x l ++ values_of eqb x l'.
Proof. unfold values_of. now rewrite filter_app, map_app. Qed.

Lemma values_of_NoDup (x : Qc) (l : list (Qc * Qc)) :
  NoDup (map fst l) ->
  values_of Qc_eqb x l = match lookup Qc_eqb x l with Some v => [v] | None => [] end.
Proof.
  induction l as [|[k v] l IH]; cbn; intros Hn; [reflexivity|].
  inversion Hn as [|? ? Hk Hn']; subst. unfold values_of in *. cbn.
  destruct (Qc_eqb x k) eqn:E; cbn; [|auto].
  apply Qc_eqb_spec in E. subst k. rewrite IH by exact Hn'.
  rewrite (proj2 (lookup_None _ Qc_eqb_decides x l)) by exact Hk. reflexivity.
Qed.

Lemma values_of_nil_iff {B} (x : Qc) (l : list (Qc * B)) :
  values_of Qc_eqb x l = [] <-> ~ In x (map fst l).
Proof.
  induction l as [|[k v] l IH]; cbn; [tauto|]. unfold values_of in *. cbn.
  destruct (Qc_eqb x k) eqn:E; cbn.
  - apply Qc_eqb_spec in E; subst. split; [discriminate|tauto].
  - apply Qc_eqb_false in E. rewrite IH. intuition congruence.
Qed.

Lemma combine_app {A B} (a a' : list A) (b b' : list B) :
  length a = length b -> combine (a ++ a') (b ++ b') = combine a b ++ combine a' b'.
Proof.
  revert b; induction a as [|x a IH]; intros [|y b]; cbn; try discriminate; auto.
  intros [= H]. now rewrite IH.
Qed.

Lemma lookup_perm (x : Qc) (l l' : list (Qc * Qc)) :
  NoDup (map fst l) -> Permutation l l' -> lookup Qc_eqb x l = lookup Qc_eqb x l'.
Proof.
  intros Hn Hp.
  assert (Hn' : NoDup (map fst l')) by (eapply Permutation_NoDup; [apply Permutation_map; exact Hp|exact Hn]).
  destruct (lookup Qc_eqb x l) as [v|] eqn:E.
  - symmetry. apply (In_lookup _ Qc_eqb_decides); [exact Hn'|].
    apply (lookup_Some_In _ Qc_eqb_decides) in E. eapply Permutation_in; eauto.
  - apply (lookup_None _ Qc_eqb_decides) in E. symmetry. apply (lookup_None _ Qc_eqb_decides).
    intros H. apply E. unfold keys in *. eapply Permutation_in; [|exact H].
    apply Permutation_map. symmetry. exact Hp.
Qed.

Lemma sorted_strict (l : list Qc) :
  NoDup l -> StronglySorted (fun x y => Qc_leb x y = true) l -> strictly_increasing l.
Proof.
  intros Hn Hs. induction Hs as [|a l Hs IH Hf]; constructor.
  - inversion Hn; auto. apply IH; auto.
  - inversion Hn as [|? ? Ha Hn']; subst. rewrite Forall_forall in *. intros x Hx.
    specialize (Hf x Hx). apply Qc_leb_le in Hf.
    assert (a <> x) by (intros ->; auto).
    destruct (Qc_ltb a x) eqn:E; qc_bool; [exact E|].
    exfalso. apply H. qclra.
Qed.

Lemma strict_NoDup (l : list Qc) : strictly_increasing l -> NoDup l.
Proof.
  induction 1 as [|a l Hs IH Hf]; constructor; auto.
  rewrite Forall_forall in Hf. intros Hi. specialize (Hf a Hi). qclra.
Qed.

Definition good (t : lut) : Prop :=
  match lxy t with
  | None => lf t = None
  | Some (x, y) =>
      length x = length y /\ x <> [] /\ strictly_increasing x /\ lf t = Some (combine x y)
  end.

Lemma map_fst_combine {A B} (a : list A) (b : list B) :
  length a = length b -> map fst (combine a b) = a.
Proof.
  revert b; induction a as [|x a IH]; intros [|y b]; cbn; try discriminate; auto.
  intros [= H]. now rewrite IH.
Qed.

Lemma combine_nil_iff {A B} (a : list A) (b : list B) :
  length a = length b -> combine a b = [] <-> a = [].
Proof. destruct a, b; cbn; split; intros; try discriminate; auto. Qed.

(* one operation *)
Lemma new_data_step addflag x y t :
  good t -> length x = length y ->
  match new_data addflag x y t with
  | (Ok _, t') =>
      good t' /\ lxy t' <> None /\
      forall v, lookup Qc_eqb v (points t') =
        match values_of Qc_eqb v (combine x y) with
        | [] => lookup Qc_eqb v (points t)
        | w :: ws => Some (if addflag
            then sum (w :: ws) + match lookup Qc_eqb v (points t) with Some o => o | None => 0 end
            else w)
        end
  | (Err e, _) => e = ValueError /\ x = [] /\ lxy t = None
  end.
Proof.
  intros Hg Hlen. unfold new_data.
  set (x1 := match lxy t with None => x | Some (ox, _) => x ++ ox end).
  set (y1 := match lxy t with None => y | Some (_, oy) => y ++ oy end).
  set (t1 := match lxy t with None => {| lxy := Some (x, y); lf := lf t; ldefault := ldefault t |}
             | Some _ => t end).
  replace (match lxy t with
    | Some (ox, oy) => (t, x ++ ox, y ++ oy)
    | None => ({| lxy := Some (x, y); lf := lf t; ldefault := ldefault t |}, x, y)
    end) with (t1, x1, y1) by (unfold t1, x1, y1; destruct (lxy t) as [[ox oy]|]; reflexivity).
  assert (Hc : combine x1 y1 = combine x y ++ points t).
  { unfold x1, y1, points. destruct (lxy t) as [[ox oy]|]; [apply combine_app; exact Hlen|].
    now rewrite app_nil_r. }
  assert (Hnd : NoDup (map fst (points t))).
  { unfold points. unfold good in Hg. destruct (lxy t) as [[ox oy]|]; [|constructor].
    destruct Hg as (Hl & _ & Hs & _). rewrite map_fst_combine by exact Hl. now apply strict_NoDup. }
  assert (Hempty : combine x1 y1 = [] -> x = [] /\ lxy t = None).
  { rewrite Hc. intros E. apply app_eq_nil in E. destruct E as [E1 E2].
    split; [now apply (combine_nil_iff x y Hlen)|]. unfold points in E2. unfold good in Hg.
    destruct (lxy t) as [[ox oy]|]; [|reflexivity]. destruct Hg as (Hl & Hne & _).
    apply (combine_nil_iff ox oy Hl) in E2. congruence. }
  (* common end of both branches *)
  assert (Hmain : forall ux uy,
    length ux = length uy -> NoDup ux -> (forall v, In v ux <-> In v (map fst (combine x1 y1))) ->
    (forall v, lookup Qc_eqb v (combine ux uy) =
        match values_of Qc_eqb v (combine x y) with
        | [] => lookup Qc_eqb v (points t)
        | w :: ws => Some (if addflag
            then sum (w :: ws) + match lookup Qc_eqb v (points t) with Some o => o | None => 0 end
            else w)
        end) ->
    match (match sort2lists Qc_leb ux uy with
      | None => (Err ValueError, t1)
      | Some (sx, sy) =>
          (Ok tt, {| lxy := Some (sx, sy); lf := Some (combine sx sy); ldefault := ldefault t |})
      end) with
    | (Ok _, t') => good t' /\ lxy t' <> None /\
      forall v, lookup Qc_eqb v (points t') =
        match values_of Qc_eqb v (combine x y) with
        | [] => lookup Qc_eqb v (points t)
        | w :: ws => Some (if addflag
            then sum (w :: ws) + match lookup Qc_eqb v (points t) with Some o => o | None => 0 end
            else w)
        end
    | (Err e, _) => e = ValueError /\ x = [] /\ lxy t = None
    end).
  { intros ux uy Hul Hun Hui Hul2.
    destruct (sort2lists Qc_leb ux uy) as [[sx sy]|] eqn:Es.
    - pose proof (sort2lists_spec Qc_leb ux uy sx sy Qc_leb_total Qc_leb_trans Es) as (Hsl & Hp & Hs & _).
      assert (Hsn : NoDup sx).
      { rewrite <- (map_fst_combine sx sy Hsl). eapply Permutation_NoDup.
        - apply Permutation_map. symmetry. exact Hp.
        - rewrite map_fst_combine by exact Hul. exact Hun. }
      split; [|split; [discriminate|]].
      + unfold good. cbn [lxy lf]. split; [exact Hsl|]. split; [|split; [|reflexivity]].
        * intros ->. destruct sy; [|discriminate]. cbn in Hp. apply Permutation_nil in Hp.
          destruct ux as [|u ux], uy; try discriminate.
        * apply sorted_strict; assumption.
      + intros v. unfold points at 1. cbn [lxy]. rewrite <- Hul2.
        apply lookup_perm; [|exact Hp]. rewrite map_fst_combine by exact Hsl. exact Hsn.
    - apply sort2lists_None in Es. split; [reflexivity|]. apply Hempty.
      apply (combine_nil_iff ux uy Hul) in Es. subst ux.
      destruct (combine x1 y1) as [|[a b] l] eqn:E; [reflexivity|].
      exfalso. apply (proj2 (Hui a)). cbn. auto. }
  assert (Hlk : forall ks f v, NoDup ks ->
            lookup Qc_eqb v (combine ks (map f ks)) = if existsb (Qc_eqb v) ks then Some (f v) else None :> option Qc).
  { clear. induction ks as [|k ks IH]; intros f v Hn; cbn; [reflexivity|].
    inversion Hn; subst. destruct (Qc_eqb v k) eqn:E; cbn.
    - apply Qc_eqb_spec in E. now subst.
    - apply IH; assumption. }
  destruct addflag.
  - destruct (unique2lists_add Qc_eqb Qcplus 0 x1 y1) as [ux uy] eqn:Eu.
    pose proof (unique2lists_add_spec Qc_eqb Qc_eqb_decides Qcplus 0 x1 y1 ux uy Eu) as ((Hn & Hi & _) & Huy).
    apply Hmain; auto.
    + rewrite Huy. now rewrite map_length.
    + intros v. rewrite Huy. rewrite Hlk by exact Hn. rewrite sum_fold, Hc, values_of_app, sum_app.
      rewrite (values_of_NoDup v (points t) Hnd).
      destruct (existsb (Qc_eqb v) ux) eqn:Ex.
      * apply (existsb_eqb _ Qc_eqb_decides) in Ex. apply Hi in Ex. rewrite Hc, map_app, in_app_iff in Ex.
        destruct (values_of Qc_eqb v (combine x y)) as [|w ws] eqn:Ev.
        -- apply values_of_nil_iff in Ev. destruct Ex as [Ex|Ex]; [tauto|].
           destruct (lookup Qc_eqb v (points t)) as [o|] eqn:El.
           ++ f_equal. cbn. ring.
           ++ apply (lookup_None _ Qc_eqb_decides) in El. tauto.
        -- f_equal. destruct (lookup Qc_eqb v (points t)); cbn; ring.
      * apply (existsb_eqb_false _ Qc_eqb_decides) in Ex. rewrite Hi, Hc, map_app, in_app_iff in Ex.
        destruct (values_of Qc_eqb v (combine x y)) as [|w ws] eqn:Ev.
        -- symmetry. apply (lookup_None _ Qc_eqb_decides). unfold keys. tauto.
        -- exfalso. apply Ex. left. destruct (in_dec Qc_eq_dec v (map fst (combine x y))) as [H|H]; [exact H|].
           apply values_of_nil_iff in H. congruence.
  - destruct (unique2lists_first Qc_eqb x1 y1) as [[ux uy]|e] eqn:Eu.
    + pose proof (unique2lists_first_spec Qc_eqb Qc_eqb_decides x1 y1 ux uy Eu) as ((Hn & Hi & _) & HF).
      assert (Hul : length ux = length uy) by (eapply Forall2_len; exact HF).
      assert (Hlk2 : forall v, lookup Qc_eqb v (combine ux uy) = lookup Qc_eqb v (combine x1 y1)).
      { intros v. destruct (in_dec Qc_eq_dec v ux) as [Hv|Hv].
        - clear -HF Hn Hv. induction HF as [|a b ux uy Hab HF IH]; [destruct Hv|]. cbn.
          inversion Hn; subst. destruct (Qc_eqb v a) eqn:E.
          + apply Qc_eqb_spec in E. subst. now symmetry.
          + apply Qc_eqb_false in E. apply IH; auto. destruct Hv; [congruence|assumption].
        - transitivity (@None Qc).
          + apply (lookup_None _ Qc_eqb_decides). unfold keys. rewrite map_fst_combine by exact Hul. exact Hv.
          + symmetry. apply (lookup_None _ Qc_eqb_decides). unfold keys. now rewrite <- Hi. }
      apply Hmain; auto.
      intros v. rewrite Hlk2, Hc. rewrite lookup_app.
      assert (Hf : lookup Qc_eqb v (combine x y) =
                   match values_of Qc_eqb v (combine x y) with [] => None | w :: _ => Some w end).
      { clear. generalize (combine x y). intros l. induction l as [|[k w] l IH]; [reflexivity|].
        unfold values_of in *. cbn. destruct (Qc_eqb v k); [reflexivity|exact IH]. }
      rewrite Hf. destruct (values_of Qc_eqb v (combine x y)); reflexivity.
    + assert (He : exists e, unique2lists_first Qc_eqb x1 y1 = Err e) by eauto.
      apply unique2lists_first_err in He. split; [|apply Hempty; exact He].
      unfold unique2lists_first in Eu. rewrite He in Eu. cbn in Eu. congruence.
Qed.

Lemma lut_run_app ops1 ops2 t :
  lut_run (ops1 ++ ops2) t =
  match lut_run ops1 t with (Ok _, t1) => lut_run ops2 t1 | (Err e, t1) => (Err e, t1) end.
Proof.
  revert t; induction ops1 as [|op ops1 IH]; intros t; cbn [app lut_run]; [reflexivity|].
  destruct (lut_apply op t) as [[[]|e] t1]; [apply IH|reflexivity].
Qed.

Lemma lut_run_good ops d t :
  Forall equal_lengths ops -> lut_run ops (lut_clear d) = (Ok tt, t) ->
  good t /\ forall v, lookup Qc_eqb v (points t) = spec_value v ops.
Proof.
  revert t. induction ops as [|op ops IH] using rev_ind; intros t Hl Hr.
  - cbn in Hr. injection Hr as <-. split; [reflexivity|]. reflexivity.
  - apply Forall_app in Hl. destruct Hl as [Hl Hop]. inversion Hop as [|? ? Ho _]; subst.
    rewrite lut_run_app in Hr. destruct (lut_run ops (lut_clear d)) as [[[]|e] t1] eqn:E; [|discriminate].
    destruct (IH _ Hl eq_refl) as [Hg Hv].
    cbn [lut_run] in Hr. unfold lut_apply in Hr.
    assert (Hstep : forall b x y, op = (if b : bool then LAdd x y else LReplace x y) -> length x = length y ->
      good t /\ forall v, lookup Qc_eqb v (points t) = spec_value v (ops ++ [op])).
    { intros b x y -> Hxy. pose proof (new_data_step b x y t1 Hg Hxy) as Hs.
      destruct b; destruct (new_data _ x y t1) as [[[]|e] t2]; try discriminate;
      injection Hr as <-; destruct Hs as (Hg2 & _ & Hv2); (split; [exact Hg2|]);
      intros v; rewrite Hv2; unfold spec_value; rewrite fold_left_app; cbn [fold_left];
      fold (spec_value v ops); rewrite Hv; destruct (values_of Qc_eqb v (combine x y)); reflexivity. }
    destruct op as [x y|x y].
    + apply (Hstep true x y); auto.
    + apply (Hstep false x y); auto.
Qed.

Lemma lut_content ops d t :
  Forall equal_lengths ops -> lut_run ops (lut_clear d) = (Ok tt, t) ->
  (lxy t = None /\ ops = []) \/
  exists x y, lxy t = Some (x, y) /\ length x = length y /\ strictly_increasing x /\
    forall v w, In (v, w) (combine x y) <-> spec_value v ops = Some w.
Proof.
  intros Hl Hr. destruct (lut_run_good _ _ _ Hl Hr) as [Hg Hv].
  destruct (lxy t) as [[x y]|] eqn:E.
  - right. exists x, y. unfold good in Hg. rewrite E in Hg. destruct Hg as (Hxy & Hne & Hs & _).
    repeat split; auto; intros H.
    + rewrite <- Hv. unfold points. rewrite E. apply (In_lookup _ Qc_eqb_decides); [|exact H].
      unfold keys. rewrite map_fst_combine by exact Hxy. now apply strict_NoDup.
    + rewrite <- Hv in H. unfold points in H. rewrite E in H.
      now apply (lookup_Some_In _ Qc_eqb_decides) in H.
  - left. split; [reflexivity|]. destruct ops as [|op ops _] using rev_ind; [reflexivity|].
    exfalso. rewrite lut_run_app in Hr. apply Forall_app in Hl. destruct Hl as [Hl Ho].
    inversion Ho as [|? ? Hop _]; subst.
    destruct (lut_run ops (lut_clear d)) as [[[]|e] t1] eqn:E1; [|discriminate].
    destruct (lut_run_good _ _ _ Hl E1) as [Hg1 _]. cbn [lut_run] in Hr.
    destruct op as [x y|x y]; cbn [lut_apply] in Hr;
    pose proof (fun b => new_data_step b x y t1 Hg1 Hop) as Hs.
    + specialize (Hs true). destruct (new_data true x y t1) as [[[]|e] t2]; [|discriminate].
      injection Hr as <-. tauto.
    + specialize (Hs false). destruct (new_data false x y t1) as [[[]|e] t2]; [|discriminate].
      injection Hr as <-. tauto.
Qed.

Lemma lut_step_error ops d t op :
  Forall equal_lengths ops -> equal_lengths op -> lut_run ops (lut_clear d) = (Ok tt, t) ->
  (exists e t', lut_apply op t = (Err e, t')) <->
  ops = [] /\ (match op with LAdd x _ | LReplace x _ => x end) = [].
Proof.
  intros Hl Hop Hr. destruct (lut_run_good _ _ _ Hl Hr) as [Hg _].
  destruct (lut_content _ _ _ Hl Hr) as [[E ->]|(ox & oy & E & _)].
  - cbn in Hr. injection Hr as <-. split.
    + intros (e & t' & H). split; [reflexivity|].
      destruct op as [x y|x y]; cbn [lut_apply] in H;
      pose proof (fun b => new_data_step b x y (lut_clear d) Hg Hop) as Hs;
      [specialize (Hs true)|specialize (Hs false)]; rewrite H in Hs; tauto.
    + intros [_ Hx]. destruct op as [x y|x y]; subst x; destruct y; try discriminate; cbn; eauto.
  - split.
    + intros (e & t' & H). exfalso.
      destruct op as [x y|x y]; cbn [lut_apply] in H;
      pose proof (fun b => new_data_step b x y t Hg Hop) as Hs;
      [specialize (Hs true)|specialize (Hs false)]; rewrite H in Hs; destruct Hs as (_ & _ & Hs);
      congruence.
    + intros [-> _]. cbn in Hr. injection Hr as <-. discriminate.
Qed.

(* ---- interpolation ---- *)
Lemma strict_nth (l : list Qc) i j a b :
  strictly_increasing l -> nth_error l i = Some a -> nth_error l j = Some b ->
  (i < j)%nat -> a < b.
Proof.
  intros Hs. revert i j. induction Hs as [|c l Hs IH Hf]; intros i j Hi Hj Hij.
  - destruct i; discriminate.
  - destruct j as [|j]; [lia|]. cbn in Hj. destruct i as [|i]; cbn in Hi.
    + injection Hi as ->. rewrite Forall_forall in Hf. apply Hf. eapply nth_error_In; eauto.
    + apply (IH i j); auto. lia.
Qed.

Lemma searchsorted_le xs v : (searchsorted xs v <= length xs)%nat.
Proof. induction xs as [|x xs IH]; cbn; [lia|]. destruct (Qc_ltb x v); lia. Qed.

Lemma searchsorted_below xs v i a :
  nth_error xs i = Some a -> (i < searchsorted xs v)%nat -> a < v.
Proof.
  revert i; induction xs as [|x xs IH]; intros i H Hi; cbn in *; [lia|].
  destruct (Qc_ltb x v) eqn:E; [|lia]. destruct i as [|i]; cbn in H.
  - injection H as ->. now qc_bool.
  - apply (IH i); auto. lia.
Qed.

Lemma searchsorted_at xs v a : nth_error xs (searchsorted xs v) = Some a -> v <= a.
Proof.
  induction xs as [|x xs IH]; cbn; [discriminate|].
  destruct (Qc_ltb x v) eqn:E; cbn; [exact IH|]. intros [= ->]. now qc_bool.
Qed.

Lemma searchsorted_char xs v i a b :
  strictly_increasing xs ->
  nth_error xs i = Some a -> nth_error xs (S i) = Some b -> a < v -> v <= b ->
  searchsorted xs v = S i.
Proof.
  intros Hs Ha Hb H1 H2. pose proof (searchsorted_le xs v) as Hle.
  destruct (Nat.lt_trichotomy (searchsorted xs v) (S i)) as [H|[H|H]]; [|exact H|].
  - exfalso. destruct (nth_error xs (searchsorted xs v)) as [c|] eqn:E.
    + pose proof (searchsorted_at _ _ _ E) as Hc.
      destruct (Nat.eq_dec (searchsorted xs v) i) as [Heq|Hne].
      * rewrite Heq in E. assert (c = a) by congruence. subst. qclra.
      * assert (c < a) by (eapply strict_nth; eauto; lia). qclra.
    + apply nth_error_None in E. assert (nth_error xs i <> None) by congruence.
      apply nth_error_Some in H0. lia.
  - exfalso. pose proof (searchsorted_below xs v (S i) b Hb H). qclra.
Qed.

Lemma searchsorted_zero x xs v : v <= x -> searchsorted (x :: xs) v = O.
Proof. intros H. cbn. destruct (Qc_ltb x v) eqn:E; [|reflexivity]. qc_bool. exfalso. qclra. Qed.

Lemma py_get_0 {A} (l : list A) : py_get l 0%Z = match l with [] => Err IndexError | a :: _ => Ok a end.
Proof. destruct l; reflexivity. Qed.

Lemma py_get_last {A} (l : list A) a : nth_error l (length l - 1) = Some a -> py_get l (-1)%Z = Ok a.
Proof.
  intros H. assert (Hl : (0 < length l)%nat).
  { destruct l; [destruct (length (@nil A) - 1)%nat; discriminate|cbn; lia]. }
  unfold py_get, py_pos.
  destruct ((0 <=? -1)%Z && (-1 <? Z.of_nat (length l))%Z) eqn:E1; [lia|].
  destruct ((- Z.of_nat (length l) <=? -1)%Z && (-1 <? 0)%Z) eqn:E2; [|lia].
  replace (Z.to_nat (-1 + Z.of_nat (length l))) with (length l - 1)%nat by lia. now rewrite H.
Qed.

Section Interp.
Variable pts : list (Qc * Qc).
Hypothesis Hinc : strictly_increasing (map fst pts).
Hypothesis Hlen : (2 <= length pts)%nat.

Lemma fst_nth i x y : nth_error pts i = Some (x, y) -> nth_error (map fst pts) i = Some x.
Proof. intros H. rewrite nth_error_map, H. reflexivity. Qed.

Lemma interp_segment i x0 y0 x1 y1 v :
  nth_error pts i = Some (x0, y0) -> nth_error pts (S i) = Some (x1, y1) ->
  x0 <= v -> v <= x1 ->
  interp_linear pts v = Ok ((y1 - y0) / (x1 - x0) * (v - x0) + y0).
Proof.
  intros H0 H1 Hv0 Hv1. unfold interp_linear.
  destruct pts as [|[xf yf] rest] eqn:Ep; [cbn in Hlen; lia|]. rewrite <- Ep in *.
  destruct (nth_error pts (length pts - 1)) as [[xl yl]|] eqn:El.
  2: { apply nth_error_None in El. lia. }
  rewrite (py_get_last _ _ El). rewrite py_get_0. rewrite Ep at 1. cbn [bind fst snd].
  assert (Hn1 : (S i < length pts)%nat) by (apply nth_error_Some; congruence).
  assert (Hf : xf <= v).
  { destruct i as [|i].
    - rewrite Ep in H0. cbn in H0. injection H0 as -> ->. exact Hv0.
    - assert (xf < x0). { eapply (strict_nth _ 0 (S i)); [exact Hinc| | |lia].
        - rewrite Ep; reflexivity. - eapply fst_nth; eauto. } qclra. }
  assert (Hl : v <= xl).
  { destruct (Nat.eq_dec (S i) (length pts - 1)) as [E|E].
    - rewrite E in H1. rewrite El in H1. injection H1 as -> ->. exact Hv1.
    - assert (x1 < xl). { eapply (strict_nth _ (S i) (length pts - 1)); [exact Hinc| | |lia];
        eapply fst_nth; eauto. } qclra. }
  destruct (Qc_ltb v xf) eqn:E1; [qc_bool; exfalso; qclra|].
  destruct (Qc_ltb xl v) eqn:E2; [qc_bool; exfalso; qclra|].
  assert (Hx01 : x0 < x1) by (eapply (strict_nth _ i (S i)); [exact Hinc| | |lia]; eapply fst_nth; eauto).
  destruct (Qc_ltb x0 v) eqn:E3.
  - apply Qc_ltb_lt in E3.
    assert (Hss : searchsorted (map fst pts) v = S i).
    { apply (searchsorted_char _ v i x0 x1); auto; eapply fst_nth; eauto. }
    rewrite Hss. replace (Nat.max 1 (Nat.min (S i) (length pts - 1))) with (S i) by lia.
    replace (S i - 1)%nat with i by lia. rewrite H0, H1. reflexivity.
  - apply Qc_ltb_ge in E3. assert (v = x0) by qclra. subst v.
    (* at a knot: the segment to the left (or the first one) is used *)
    assert (Hres : forall xa ya xb yb, nth_error pts (Nat.max 1 (Nat.min (searchsorted (map fst pts) x0) (length pts - 1)) - 1) = Some (xa, ya) ->
       nth_error pts (Nat.max 1 (Nat.min (searchsorted (map fst pts) x0) (length pts - 1))) = Some (xb, yb) ->
       (yb - ya) / (xb - xa) * (x0 - xa) + ya = (y1 - y0) / (x1 - x0) * (x0 - x0) + y0).
    { intros xa ya xb yb Ha Hb. destruct i as [|i].
      - rewrite Ep in H0. cbn in H0. injection H0 as -> ->.
        assert (Hz : searchsorted (map fst pts) x0 = O).
        { rewrite Ep. cbn [map fst]. apply searchsorted_zero. qclra. }
        rewrite Hz in Ha, Hb.
        replace (Nat.max 1 (Nat.min 0 (length pts - 1))) with 1%nat in Ha, Hb by lia.
        rewrite H1 in Hb. injection Hb as <- <-. rewrite Ep in Ha. cbn in Ha. injection Ha as <- <-.
        reflexivity.
      - destruct (nth_error pts i) as [[xp yp]|] eqn:Ei.
        2: { apply nth_error_None in Ei. lia. }
        assert (Hp : xp < x0) by (eapply (strict_nth _ i (S i)); [exact Hinc| | |lia]; eapply fst_nth; eauto).
        assert (Hss : searchsorted (map fst pts) x0 = S i).
        { apply (searchsorted_char _ x0 i xp x0); auto; [eapply fst_nth; exact Ei|eapply fst_nth; exact H0]. }
        rewrite Hss in Ha, Hb. replace (Nat.max 1 (Nat.min (S i) (length pts - 1))) with (S i) in * by lia.
        replace (S i - 1)%nat with i in Ha by lia. rewrite Ei in Ha. rewrite H0 in Hb.
        injection Ha as <- <-. injection Hb as <- <-. field. split.
        + intros E. assert (x1 = x0) by qclra. subst; qclra.
        + intros E. assert (xp = x0) by qclra. subst; qclra. }
    set (hi := Nat.max 1 (Nat.min (searchsorted (map fst pts) x0) (length pts - 1))) in *.
    assert (Hhi : (hi < length pts)%nat) by (unfold hi; lia).
    destruct (nth_error pts (hi - 1)) as [[xa ya]|] eqn:Ea; [|apply nth_error_None in Ea; lia].
    destruct (nth_error pts hi) as [[xb yb]|] eqn:Eb; [|apply nth_error_None in Eb; lia].
    rewrite (Hres xa ya xb yb); auto.
Qed.

Lemma interp_below x0 y0 v : nth_error pts 0 = Some (x0, y0) -> v < x0 -> interp_linear pts v = Ok y0.
Proof.
  intros H0 Hv. unfold interp_linear. destruct (nth_error pts (length pts - 1)) as [[xl yl]|] eqn:El.
  2: { apply nth_error_None in El. lia. }
  rewrite (py_get_last _ _ El), py_get_0. destruct pts as [|p rest]; [discriminate|].
  cbn in H0. injection H0 as ->. cbn [bind fst snd].
  destruct (Qc_ltb v x0) eqn:E1; [reflexivity|]. qc_bool. exfalso. qclra.
Qed.

Lemma interp_above xl yl v :
  nth_error pts (length pts - 1) = Some (xl, yl) -> xl < v -> interp_linear pts v = Ok yl.
Proof.
  intros El Hv. unfold interp_linear.
  rewrite (py_get_last _ _ El), py_get_0. destruct pts as [|[x0 y0] rest] eqn:Ep; [cbn in Hlen; lia|].
  cbn [bind fst snd]. rewrite <- Ep in *.
  assert (x0 < xl).
  { eapply (strict_nth _ 0 (length pts - 1)); [exact Hinc| |eapply fst_nth; exact El|lia].
    rewrite Ep. reflexivity. }
  destruct (Qc_ltb v x0) eqn:E1; [qc_bool; exfalso; qclra|].
  destruct (Qc_ltb xl v) eqn:E2; [reflexivity|qc_bool; exfalso; qclra].
Qed.
End Interp.

Lemma interp_between x0 x1 y0 y1 v :
  x0 < x1 -> x0 <= v -> v <= x1 ->
  let r := (y1 - y0) / (x1 - x0) * (v - x0) + y0 in
  (y0 <= r /\ r <= y1) \/ (y1 <= r /\ r <= y0).
Proof.
  intros Hx H0 H1 r. set (s := (v - x0) / (x1 - x0)).
  assert (Hd : x1 - x0 <> 0) by (intros E; qclra).
  assert (Hr : r = y0 + (y1 - y0) * s) by (unfold r, s; field; exact Hd).
  assert (Hs : s * (x1 - x0) = v - x0) by (unfold s; field; exact Hd).
  assert (Hs0 : 0 <= s) by qcnra.
  assert (Hs1 : s <= 1) by qcnra.
  rewrite Hr. clear Hr Hs r. clearbody s.
  destruct (Qc_leb y0 y1) eqn:E; qc_bool; [left|right]; split; qcnra.
Qed.

(* statements on a reachable table *)
Lemma lut_call_empty d v : lut_call (lut_clear d) v = Ok d.
Proof. reflexivity. Qed.

Lemma nth_error_combine_some {A B} (x : list A) (y : list B) i a b :
  length x = length y -> nth_error x i = Some a -> nth_error y i = Some b ->
  nth_error (combine x y) i = Some (a, b).
Proof.
  revert x y; induction i as [|i IH]; intros [|xa x] [|ya y]; cbn; try discriminate; try congruence.
  intros [= H]. apply IH. exact H.
Qed.

Lemma lut_call_spec ops d t x y :
  Forall equal_lengths ops -> lut_run ops (lut_clear d) = (Ok tt, t) -> lxy t = Some (x, y) ->
  (forall i a b v, nth_error x i = Some a -> nth_error y i = Some b -> v = a -> lut_call t v = Ok (Some b)) /\
  (forall i x0 x1 y0 y1 v,
     nth_error x i = Some x0 -> nth_error x (S i) = Some x1 ->
     nth_error y i = Some y0 -> nth_error y (S i) = Some y1 ->
     x0 <= v -> v <= x1 ->
     exists r, lut_call t v = Ok (Some r) /\ r = y0 + (y1 - y0) * ((v - x0) / (x1 - x0)) /\
       ((y0 <= r /\ r <= y1) \/ (y1 <= r /\ r <= y0))) /\
  (forall x0 y0 v, nth_error x 0 = Some x0 -> nth_error y 0 = Some y0 -> v < x0 ->
     lut_call t v = Ok (Some y0)) /\
  (forall xl yl v, nth_error x (length x - 1) = Some xl -> nth_error y (length y - 1) = Some yl -> xl < v ->
     lut_call t v = Ok (Some yl)).
Proof.
  intros Hl Hr E. destruct (lut_run_good _ _ _ Hl Hr) as [Hg _].
  unfold good in Hg. rewrite E in Hg. destruct Hg as (Hxy & Hne & Hs & Hf).
  set (pts := combine x y) in *.
  assert (Hfst : map fst pts = x) by (apply map_fst_combine; exact Hxy).
  assert (Hpl : length pts = length x) by (rewrite <- Hfst; symmetry; apply map_length).
  assert (Hcall : forall v, lut_call t v = match pts with [(_, b)] => Ok (Some b)
             | _ => let! r := interp_linear pts v in Ok (Some r) end).
  { intros v. unfold lut_call. rewrite E, Hf. destruct pts as [|[a b] [|q pts']]; reflexivity. }
  assert (Hcall2 : (2 <= length pts)%nat -> forall v, lut_call t v = let! r := interp_linear pts v in Ok (Some r)).
  { intros H v. rewrite Hcall. destruct pts as [|[a b] [|q pts']]; cbn in H; try lia. reflexivity. }
  assert (Hcall1 : (length pts <= 1)%nat -> forall i a b v, nth_error pts i = Some (a, b) -> lut_call t v = Ok (Some b)).
  { intros H i a b v Hi. rewrite Hcall. destruct pts as [|[a' b'] [|q pts']]; cbn in H; try lia.
    - destruct i; discriminate.
    - destruct i as [|i]; cbn in Hi; [congruence|destruct i; discriminate]. }
  assert (Hinc : strictly_increasing (map fst pts)) by (rewrite Hfst; exact Hs).
  assert (Hnth : forall i a b, nth_error x i = Some a -> nth_error y i = Some b -> nth_error pts i = Some (a, b))
    by (intros; apply nth_error_combine_some; auto).
  assert (Hseg : forall i x0 x1 y0 y1 v,
     nth_error x i = Some x0 -> nth_error x (S i) = Some x1 ->
     nth_error y i = Some y0 -> nth_error y (S i) = Some y1 ->
     x0 <= v -> v <= x1 ->
     lut_call t v = Ok (Some ((y1 - y0) / (x1 - x0) * (v - x0) + y0))).
  { intros i x0 x1 y0 y1 v H1 H2 H3 H4 H5 H6.
    assert (Hi : (S i < length pts)%nat) by (rewrite Hpl; apply nth_error_Some; congruence).
    rewrite Hcall2 by lia.
    rewrite (interp_segment pts Hinc ltac:(lia) i x0 y0 x1 y1 v); auto. }
  split; [|split; [|split]].
  - intros i a b v Ha Hb ->.
    destruct (Nat.ltb_spec (length pts) 2) as [H2|H2].
    + eapply Hcall1; [lia|]. eapply Hnth; eauto.
    + destruct (nth_error x (S i)) as [x1|] eqn:E1.
      * destruct (nth_error y (S i)) as [y1|] eqn:E2.
        -- rewrite (Hseg i a x1 b y1 a); auto; try qclra.
           ++ f_equal. f_equal. assert (a < x1) by exact (strict_nth x i (S i) a x1 Hs Ha E1 ltac:(lia)).
              field. intros Ez. qclra.
           ++ assert (a < x1) by exact (strict_nth x i (S i) a x1 Hs Ha E1 ltac:(lia)). qclra.
        -- apply nth_error_None in E2. assert (nth_error x (S i) <> None) by congruence.
           apply nth_error_Some in H. lia.
      * apply nth_error_None in E1. destruct i as [|i].
        { assert (length x <= 1)%nat by lia. lia. }
        destruct (nth_error x i) as [x0|] eqn:E0.
        2: { apply nth_error_None in E0. assert (nth_error x (S i) <> None) by congruence.
             apply nth_error_Some in H. lia. }
        destruct (nth_error y i) as [y0|] eqn:E2.
        2: { apply nth_error_None in E2. assert (nth_error y (S i) <> None) by congruence.
             apply nth_error_Some in H. lia. }
        assert (x0 < a) by exact (strict_nth x i (S i) x0 a Hs E0 Ha ltac:(lia)).
        rewrite (Hseg i x0 a y0 b a); auto; try qclra.
        f_equal. f_equal. field. intros Ez. qclra.
  - intros i x0 x1 y0 y1 v H1 H2 H3 H4 H5 H6.
    assert (Hx : x0 < x1) by exact (strict_nth x i (S i) x0 x1 Hs H1 H2 ltac:(lia)).
    exists ((y1 - y0) / (x1 - x0) * (v - x0) + y0). split; [eapply Hseg; eauto|]. split.
    + field. intros Ez. qclra.
    + apply interp_between; auto.
  - intros x0 y0 v Hx Hy Hv. specialize (Hnth _ _ _ Hx Hy).
    destruct (Nat.ltb_spec (length pts) 2) as [H2|H2].
    + eapply Hcall1; [lia|exact Hnth].
    + rewrite Hcall2 by exact H2. erewrite interp_below; eauto; reflexivity.
  - intros xl yl v Hx Hy Hv. rewrite <- Hxy in Hy. specialize (Hnth _ _ _ Hx Hy).
    destruct (Nat.ltb_spec (length pts) 2) as [H2|H2].
    + eapply Hcall1; [lia|exact Hnth].
    + rewrite Hcall2 by exact H2. rewrite <- Hpl in Hnth. erewrite interp_above; eauto; reflexivity.
Qed.

(* ---- refutations ---- *)
Definition q (z : Z) : Qc := Qc_of_Z z.

(* Adding two x values with one y value changes the value stored at 10 and
   drops the entry at 20. *)
Definition two_points : list lutop := [LAdd [q 10; q 20] [q 1; q 2]].
Definition short_y : lutop := LAdd [q 30; q 40] [q 3].

Lemma mismatch_corrupts :
  exists t1 t2, lut_run two_points (lut_clear None) = (Ok tt, t1) /\
    lut_apply short_y t1 = (Ok tt, t2) /\
    lookup Qc_eqb (q 10) (points t1) = Some (q 1) /\ lookup Qc_eqb (q 10) (points t2) = Some (q 2) /\
    lookup Qc_eqb (q 20) (points t1) = Some (q 2) /\ lookup Qc_eqb (q 20) (points t2) = None.
Proof.
  set (t1 := snd (lut_run two_points (lut_clear None))).
  set (t2 := snd (lut_apply short_y t1)).
  exists t1, t2.
  split; [apply injective_projections; [vm_compute|]; reflexivity|].
  split; [apply injective_projections; [vm_compute|]; reflexivity|].
  repeat split; try apply Qc_opt_eq; vm_compute; reflexivity.
Qed.

Lemma empty_add_corrupts :
  exists t, lut_apply (LAdd [] []) (lut_clear (Some 0)) = (Err ValueError, t) /\
    lut_call (lut_clear (Some 0)) 1 = Ok (Some 0) /\ lut_call t 1 = Err TypeError.
Proof. eexists. split; [reflexivity|]. split; reflexivity. Qed.

Lemma empty_len : lut_len (lut_clear None) = 1%nat.
Proof. reflexivity. Qed.
