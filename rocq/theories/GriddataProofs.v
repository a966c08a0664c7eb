From Verif Require Import GriddataSpec TextProofs GroupProofs.
From Coq Require Import Lia.
Local Open Scope list_scope.
Local Open Scope nat_scope.

Section Grid.
Context {A S : Type} (eqb : A -> A -> bool).
Implicit Types (p : plot A S) (l : list (plot A S)).

Lemma axes_eqb_spec a b : axes_eqb eqb a b = true <-> same_axes eqb a b.
Proof.
  unfold same_axes. revert b. induction a as [|x a IH]; intros [|y b]; cbn.
  - split; [constructor|reflexivity].
  - split; [discriminate|intros H; inversion H].
  - split; [discriminate|intros H; inversion H].
  - rewrite andb_true_iff, IH. split; [intros [H1 H2]; constructor; assumption|intros H; inversion H; auto].
Qed.
Lemma known_group g (groups : list (grp * list S)) : existsb (fun gs => eq_op g (OGrp (fst gs))) groups = true <-> In (g_name g) (map (fun gs => g_name (fst gs)) groups).
Proof.
  rewrite existsb_exists, in_map_iff. split.
  - intros (x & Hx & E). exists x. split; [|exact Hx]. symmetry. unfold eq_op, compareop, cmpkey, op_eq in E. now apply chars_eqb_spec in E.
  - intros (x & E & Hx). exists x. split; [exact Hx|]. unfold eq_op, compareop, cmpkey, op_eq. now apply chars_eqb_spec.
Qed.
Lemma own_cons p l : own (p :: l) = if p_link p then own l else p :: own l.
Proof. unfold own. cbn. destruct (p_link p); reflexivity. Qed.

Lemma sound l groups axes sd groups' axes' sd' : collect eqb l groups axes sd = Ok (groups', axes', sd') -> NoDup (map (fun gs => g_name (fst gs)) groups) ->
  exists gs, Forall2 named (own l) gs /\ groups' = groups ++ combine gs (map p_signals (own l)) /\ NoDup (map (fun gs => g_name (fst gs)) groups') /\
  sd' = first_some (sd :: map p_stackdim (own l)) /\ (axes <> [] -> axes' = axes) /\
  (forall p, In p (own l) -> p_axes p = [] \/ p_axes p = axes' \/ same_axes eqb axes' (p_axes p)).
Proof.
  revert groups axes sd. induction l as [|p l IH]; intros groups axes sd H Hn; cbn [collect] in H.
  - assert (groups = groups' /\ axes = axes' /\ sd = sd') as (-> & -> & ->) by (split; [|split]; congruence).
    exists []. split; [constructor|]. split; [cbn; now rewrite app_nil_r|]. split; [exact Hn|]. split; [destruct sd'; reflexivity|]. split; [reflexivity|]. intros p [].
  - rewrite own_cons. destruct (p_link p); [now apply (IH groups axes sd)|].
    destruct (make (GStr (p_name p))) as [g|] eqn:G; cbn [bind] in H; [|discriminate].
    destruct (existsb _ groups) eqn:K; [discriminate|].
    assert (NoDup (map (fun gs => g_name (fst gs)) (groups ++ [(g, p_signals p)]))) as Hn'.
    { rewrite map_app. cbn. apply (NoDup_Add (a := g_name g) (l := map (fun gs => g_name (fst gs)) groups)).
      - rewrite <- (app_nil_r (map _ groups)) at 1. apply Add_app.
      - split; [exact Hn|]. intros I. apply known_group in I. congruence. }
    set (sd1 := match sd with None => p_stackdim p | Some _ => sd end) in *.
    assert (forall r, first_some (sd1 :: r) = first_some (sd :: p_stackdim p :: r)) as Esd by (intros r; unfold sd1; destruct sd; reflexivity).
    assert (X : exists ax, collect eqb l (groups ++ [(g, p_signals p)]) ax sd1 = Ok (groups', axes', sd') /\
       (ax = [] -> p_axes p = []) /\ (axes <> [] -> ax = axes) /\ (p_axes p = ax \/ same_axes eqb ax (p_axes p))).
    { destruct axes as [|a0 ar].
      - exists (p_axes p). repeat split; auto; congruence.
      - destruct (axes_eqb eqb (a0 :: ar) (p_axes p)) eqn:E; [|discriminate]. exists (a0 :: ar). split; [exact H|]. split; [discriminate|]. split; [reflexivity|]. right. now apply axes_eqb_spec. }
    destruct X as (ax & H' & X1 & X2 & X3).
    destruct (IH _ _ _ H' Hn') as (gs & F & Eg & Nd & Es & Ea & Ef).
    exists (g :: gs). split; [constructor; [exact G|exact F]|]. split; [rewrite Eg, <- app_assoc; reflexivity|]. split; [exact Nd|].
    split; [rewrite Es; cbn [map]; apply Esd|].
    split; [intros N; specialize (X2 N); rewrite Ea; congruence|].
    intros q [<-|Hq]; [|now apply Ef]. destruct ax as [|b0 br]; [left; now apply X1|]. right. rewrite Ea by discriminate. exact X3.
Qed.
Lemma complete l groups axes sd gs : Forall2 named (own l) gs -> NoDup (map (fun gs => g_name (fst gs)) groups ++ map g_name gs) ->
  axes <> [] -> (forall p, In p (own l) -> same_axes eqb axes (p_axes p)) ->
  collect eqb l groups axes sd = Ok (groups ++ combine gs (map p_signals (own l)), axes, first_some (sd :: map p_stackdim (own l))).
Proof.
  intros F Hn Ha Hs. revert groups sd gs F Hn. induction l as [|p l IH]; intros groups sd gs F Hn.
  - inversion F; subst. cbn. rewrite app_nil_r. destruct sd; reflexivity.
  - rewrite own_cons in *. cbn [collect]. destruct (p_link p); [now apply IH|].
    inversion F as [|? g ? gs' G F']; subst. unfold named in G. rewrite G. cbn [bind].
    cbn [map] in Hn. pose proof (NoDup_remove_2 _ _ _ Hn) as Hg.
    destruct (existsb _ groups) eqn:K; [exfalso; apply Hg, in_or_app; left; now apply known_group|].
    assert (axes_eqb eqb axes (p_axes p) = true) as E by (apply axes_eqb_spec, Hs; now left).
    destruct axes as [|a0 ar]; [contradiction|]. rewrite E.
    rewrite (IH (fun q Hq => Hs q (or_intror Hq)) _ _ gs' F').
    + cbn [map combine]. rewrite <- app_assoc. destruct sd; reflexivity.
    + rewrite map_app, <- app_assoc. exact Hn.
Qed.
Lemma error_kind l groups axes sd e : collect eqb l groups axes sd = Err e -> (forall p, In p (own l) -> exists g, named p g) -> e = RuntimeError.
Proof.
  revert groups axes sd. induction l as [|p l IH]; intros groups axes sd H Hn; cbn [collect] in H; [discriminate|].
  rewrite own_cons in Hn. destruct (p_link p); [now apply (IH groups axes sd)|].
  destruct (Hn p) as [g G]; [now left|]. unfold named in G. rewrite G in H. cbn [bind] in H.
  destruct (existsb _ groups); [congruence|].
  assert (forall q, In q (own l) -> exists g, named q g) as Hn' by (intros; apply Hn; now right).
  destruct axes as [|a0 ar]; [now apply (IH _ _ _ H)|]. destruct (axes_eqb eqb (a0 :: ar) (p_axes p)); [now apply (IH _ _ _ H)|congruence].
Qed.

Lemma grid_sound sd l groups axes sd' : regulargriddata eqb (SProcess true sd l) = Ok (groups, axes, sd') ->
  exists gs, Forall2 named (own l) gs /\ groups = combine gs (map p_signals (own l)) /\ NoDup (map g_name gs) /\
  sd' = first_some (sd :: map p_stackdim (own l)) /\
  (forall p, In p (own l) -> p_axes p = [] \/ p_axes p = axes \/ same_axes eqb axes (p_axes p)).
Proof.
  intros H. destruct (sound _ _ _ _ _ _ _ H) as (gs & F & E & N & Es & _ & Ef); [constructor|].
  exists gs. split; [exact F|]. split; [exact E|]. split; [|split; [exact Es|exact Ef]].
  cbn [app] in E. rewrite E in N. clear - F N. revert N. induction F as [|p g ps gs _ F IH]; intros N; [constructor|].
  cbn in *. inversion_clear N as [|? ? N1 N2]. constructor; [|auto]. intros I. apply N1.
  clear - F I. rewrite in_map_iff in *. destruct I as (x & Ex & Hx).
  enough (exists sg, In (x, sg) (combine gs (map p_signals ps))) as (sg & Hsg) by (exists (x, sg); auto).
  clear Ex. induction F as [|q h ps gs _ _ IH]; [destruct Hx|]. cbn. destruct Hx as [->|Hx]; [eexists; now left|]. destruct (IH Hx) as (sg & ?). exists sg. now right.
Qed.
Lemma grid_complete sd l p rest gs : own l = p :: rest -> Forall2 named (own l) gs -> NoDup (map g_name gs) -> p_axes p <> [] ->
  (forall q, In q rest -> same_axes eqb (p_axes p) (p_axes q)) ->
  regulargriddata eqb (SProcess true sd l) = Ok (combine gs (map p_signals (own l)), p_axes p, first_some (sd :: map p_stackdim (own l))).
Proof.
  intros E F N Ha Hs. cbn [regulargriddata]. revert E F. induction l as [|q l IH]; intros E F; [discriminate|].
  rewrite own_cons in *. cbn [collect]. destruct (p_link q); [now apply IH|].
  injection E as -> E. inversion F as [|? g ? gs' G F']; subst. unfold named in G. rewrite G. cbn [bind existsb app].
  rewrite (complete l [(g, p_signals p)] (p_axes p) _ gs' F'); [cbn [map combine app]; destruct sd; reflexivity|exact N|exact Ha|exact Hs].
Qed.
Lemma grid_double sd l p q g h a b c : own l = a ++ p :: b ++ q :: c -> named p g -> named q h -> g_name g = g_name h -> (forall p, In p (own l) -> exists g, named p g) ->
  regulargriddata eqb (SProcess true sd l) = Err RuntimeError.
Proof.
  intros E Hp Hq Eg Hn. destruct (regulargriddata eqb (SProcess true sd l)) as [[[groups axes] sd']|e] eqn:R.
  - exfalso. destruct (grid_sound _ _ _ _ _ R) as (gs & F & _ & N & _). rewrite E in F.
    apply Forall2_app_inv_l in F as (g1 & g2 & _ & F & ->). inversion F as [|? g' ? g3 G F']; subst.
    apply Forall2_app_inv_l in F' as (g4 & g5 & _ & F' & ->). inversion F' as [|? h' ? g6 H' _]; subst.
    unfold named in *. assert (g' = g) as -> by congruence. assert (h' = h) as -> by congruence.
    rewrite map_app in N. cbn [map] in N. apply NoDup_remove_2 in N. apply N. rewrite !in_app_iff. right. rewrite map_app. apply in_or_app. right. left. congruence.
  - f_equal. exact (error_kind _ _ _ _ _ R Hn).
Qed.
Lemma grid_axes sd l p rest q : own l = p :: rest -> p_axes p <> [] -> In q rest -> ~ same_axes eqb (p_axes p) (p_axes q) -> (forall p, In p (own l) -> exists g, named p g) ->
  regulargriddata eqb (SProcess true sd l) = Err RuntimeError.
Proof.
  intros E Ha Hq Hs Hn. destruct (regulargriddata eqb (SProcess true sd l)) as [[[groups axes] sd']|e] eqn:R.
  2:{ f_equal. exact (error_kind _ _ _ _ _ R Hn). }
  exfalso. cbn [regulargriddata] in R. revert E Hn R. generalize (@nil (grp * list S)) as g0. intros g0.
  revert sd g0. induction l as [|x l IH]; intros sd g0 E Hn R; [discriminate|]. rewrite own_cons in *. cbn [collect] in R.
  destruct (p_link x); [now apply (IH sd g0)|]. injection E as -> E. destruct (make (GStr (p_name p))) as [g|]; [|discriminate]. cbn [bind] in R.
  destruct (existsb _ g0); [discriminate|].
  assert (Y : forall l g0 sd, In q (own l) -> collect eqb l g0 (p_axes p) sd = Ok (groups, axes, sd') -> same_axes eqb (p_axes p) (p_axes q)).
  { clear - Ha. induction l as [|y l IH]; intros g0 sd Hq R; [destruct Hq|]. rewrite own_cons in Hq. cbn [collect] in R. destruct (p_link y); [now apply (IH g0 sd)|].
    destruct (make (GStr (p_name y))) as [g|]; [|discriminate]. cbn [bind] in R. destruct (existsb _ g0); [discriminate|].
    destruct (p_axes p) as [|a0 ar]; [contradiction|]. destruct (axes_eqb eqb (a0 :: ar) (p_axes y)) eqn:X; [|discriminate].
    destruct Hq as [->|Hq]; [now apply axes_eqb_spec|]. now apply (IH _ _ Hq R). }
  apply Hs. apply (Y l _ _ ltac:(rewrite E; exact Hq) R).
Qed.
Lemma grid_no_axes sd p q g h : p_link p = false -> p_link q = false -> p_axes p = [] -> named p g -> named q h -> g_name g <> g_name h ->
  regulargriddata eqb (SProcess true sd [p; q]) = Ok ([(g, p_signals p); (h, p_signals q)], p_axes q, first_some [sd; p_stackdim p; p_stackdim q]).
Proof.
  intros L1 L2 Ha Hp Hq N. cbn [regulargriddata collect]. rewrite L1, L2. unfold named in *. rewrite Hp. cbn [bind existsb app]. rewrite Ha, Hq. cbn [bind existsb fst].
  destruct (eq_op h (OGrp g)) eqn:E.
  - exfalso. apply N. unfold eq_op, compareop, cmpkey, op_eq in E. apply chars_eqb_spec in E. congruence.
  - cbn [orb app]. destruct sd, (p_stackdim p), (p_stackdim q); reflexivity.
Qed.
Lemma grid_other sd l : regulargriddata eqb (SProcess false sd l) = Err ValueError /\ regulargriddata eqb (SOther : source A S) = Err ValueError.
Proof. split; reflexivity. Qed.
Lemma grid_data p : regulargriddata eqb (SData p) = regulargriddata eqb (SProcess true None [p]).
Proof. reflexivity. Qed.
Lemma grid_bad_name sd p rest l : own l = p :: rest -> make (GStr (p_name p)) = Err ValueError -> regulargriddata eqb (SProcess true sd l) = Err ValueError.
Proof.
  cbn [regulargriddata]. revert sd. induction l as [|q l IH]; intros sd E H; [discriminate|]. rewrite own_cons in E. cbn [collect].
  destruct (p_link q); [now apply IH|]. injection E as -> E. now rewrite H.
Qed.
End Grid.
