(* setitem of utils/indexing.py equals assigning to the full stack *)
From Verif Require Import TextProofs GetitemProofs OpsProofs SetitemModel SetitemSpec SetitemProofs SetitemCore.
Local Open Scope nat_scope.

Lemma broadcast_same {V} (v : arr V) : exists vb, np_broadcast v (shp v) = Ok vb /\ forall o, inside (shp v) o -> elt vb o = elt v o.
Proof.
  unfold np_broadcast. rewrite Nat.sub_diag, Nat.ltb_irrefl. cbn [skipn orb].
  assert (forallb (fun p => fits (fst p) (snd p)) (combine (shp v) (shp v)) = true) as ->.
  { apply forallb_forall. intros [a b] H. generalize (shp v) H. intros l. induction l as [|x l IH]; cbn; [tauto|].
    intros [[= -> ->]|Hi]; [|auto]. unfold fits. now rewrite Nat.eqb_refl. }
  cbn [negb]. eexists. split; [reflexivity|]. intros o Ho. cbn [elt]. f_equal.
  induction Ho as [|n k s o Hk Ho IH]; [reflexivity|]. cbn. rewrite IH. f_equal. destruct (Nat.eqb_spec n 1); lia.
Qed.
Lemma broadcast_scalar {V} (x : V) so : exists vb, np_broadcast {| shp := []; elt := fun _ => x |} so = Ok vb /\ forall o, elt vb o = x.
Proof.
  unfold np_broadcast. cbn. eexists. split; [reflexivity|]. reflexivity.
Qed.

(* value[valueindex] *)
Lemma slice_all_positions n : slice_positions n slice_all = Ok (seq 0 n).
Proof.
  assert (exists r, resolve n (Sl slice_all) = Ok r) as (r & Hr) by (cbn; eauto).
  pose proof (nonchanging_positions n (Sl slice_all) r Hr eq_refl) as H. cbn in Hr. injection Hr as <-. cbn in H.
  unfold slice_positions. cbn. apply (f_equal Ok). apply H.
Qed.
Lemma full_resolve s : resolve_all s (repeat full (length s)) = Ok (map (fun n => RSl (seq 0 n)) s).
Proof.
  induction s as [|n s IH]; [reflexivity|]. cbn [length repeat map]. apply resolve_all_cons_ok; [discriminate| |exact IH].
  cbn [resolve full]. now rewrite slice_all_positions.
Qed.
Lemma fulls_fill s : forall o, inside s o -> fill (map (fun n => RSl (seq 0 n)) s) o 0 = o.
Proof. induction 1 as [|n k s o Hk Ho IH]; [reflexivity|]. cbn. rewrite IH. now rewrite seq_nth. Qed.
Lemma fulls_kept s : kept_lens (map (fun n => RSl (seq 0 n)) s) = s.
Proof. unfold kept_lens. induction s as [|n s IH]; [reflexivity|]. cbn. rewrite IH. now rewrite seq_length. Qed.
Lemma fulls_adv s : has_adv (map (fun n => RSl (seq 0 n)) s) = false.
Proof. unfold has_adv. induction s; auto. Qed.
Lemma part_resolve : forall s ax i, ax < length s -> i < nth ax s 0 -> exists rs,
  resolve_all s (set_nth (repeat full (length s)) ax (Num (Z.of_nat i))) = Ok rs /\ has_adv rs = false /\
  kept_lens rs = remove_at ax s /\ forall o, inside (remove_at ax s) o -> fill rs o 0 = insert_at ax i o.
Proof.
  induction s as [|n s IH]; intros [|ax] i Hax Hi; cbn [length] in *; try lia.
  - cbn [repeat set_nth]. exists (RInt i :: map (fun n => RSl (seq 0 n)) s). split.
    + apply resolve_all_cons_ok; [discriminate| |apply full_resolve]. cbn [resolve]. unfold norm. cbn in Hi.
      assert (py_pos n (Z.of_nat i) = Some i) as ->; [|reflexivity].
      unfold py_pos. destruct (Z.leb_spec 0 (Z.of_nat i)); [|lia]. destruct (Z.ltb_spec (Z.of_nat i) (Z.of_nat n)); [|lia].
      cbn [andb]. now rewrite Nat2Z.id.
    + split; [apply fulls_adv|]. split; [apply fulls_kept|]. intros o Ho. cbn [fill]. rewrite insert_0. f_equal. now apply fulls_fill.
  - destruct (IH ax i ltac:(lia) Hi) as (rs & H1 & H2 & H3 & H4). exists (RSl (seq 0 n) :: rs). cbn [repeat set_nth]. split.
    + apply resolve_all_cons_ok; [discriminate| |exact H1]. cbn [resolve full]. now rewrite slice_all_positions.
    + split; [exact H2|]. split; [unfold kept_lens in *; cbn; rewrite H3, seq_length; reflexivity|].
      intros o Ho. rewrite remove_S in Ho. inversion Ho as [|? k ? o' Hk Ho']; subst. cbn [fill hd tl]. rewrite H4 by assumption.
      rewrite insert_cons, seq_nth by assumption. reflexivity.
Qed.
Lemma expand_fulls n ax x : ax < n -> np_expand (set_nth (repeat full n) ax (Num x)) n = Ok (set_nth (repeat full n) ax (Num x)).
Proof.
  intros H. unfold np_expand, count.
  assert (forall l, (forall i, In i l -> i = full \/ i = Num x) ->
    length (filter is_ell l) = 0 /\ length (filter (fun i => negb (is_new i) && negb (is_ell i)) l) = length l /\ existsb is_ell l = false) as Hl.
  { induction l as [|i l IH]; intros Hi; [auto|]. destruct IH as (I1 & I2 & I3); [intros; apply Hi; now right|].
    destruct (Hi i (or_introl eq_refl)) as [-> | ->]; cbn; rewrite I1, I2, I3; auto. }
  destruct (Hl (set_nth (repeat full n) ax (Num x))) as (H1 & H2 & H3).
  { intros i Hi. apply In_nth_error in Hi. destruct Hi as (k & Hk). rewrite nth_error_set_nth in Hk. destruct (Nat.eqb k ax).
    - destruct (Nat.ltb _ _); [|discriminate]. injection Hk as <-. now right.
    - apply nth_error_In in Hk. apply repeat_spec in Hk. now left. }
  rewrite H1, H2, H3, set_nth_length, repeat_length, Nat.ltb_irrefl, Nat.sub_diag. change (1 <? 0) with false. cbn [repeat negb]. now rewrite app_nil_r.
Qed.
Lemma value_part_ok {V} (v : arr V) ax i : ax < length (shp v) -> i < nth ax (shp v) 0 ->
  exists p, value_part v (length (shp v)) ax i = Ok p /\ shp p = remove_at ax (shp v) /\
    forall o, inside (shp p) o -> elt p o = elt v (insert_at ax i o).
Proof.
  intros Hax Hi. destruct (part_resolve (shp v) ax i Hax Hi) as (rs & H1 & H2 & H3 & H4).
  unfold value_part. rewrite expand_fulls by assumption. cbn [bind]. unfold np_get. rewrite H1. cbn [bind]. unfold out_shape. rewrite H2. cbn [bind].
  eexists. split; [reflexivity|]. cbn [shp elt]. split; [assumption|]. intros o Ho. unfold out_elt. rewrite H2. rewrite H3 in Ho. now rewrite H4.
Qed.

(* ---- the loop ---- *)
Section Loop.
Context {V : Type} (vadd vsub vmul vdiv vand vor : V -> V -> V).
Context (S' : list nat) (method : chars) (g : V -> V -> V).
Hypothesis Hg : method_op vadd vsub vmul vdiv vand vor method = Some g.
Definition good_visit (valuesel : arr V) (p : nat * list ind) (w : visit V) : Prop :=
  place w = fst p /\ resolve_all S' (snd p) = Ok (v_rs w) /\ out_shape (v_rs w) = Ok (v_so w) /\
  exists vb, np_broadcast valuesel (v_so w) = Ok vb /\ forall o, inside (v_so w) o -> elt vb o = v_val w o.
Lemma last_from_inside rs so c o : last_from rs so c = Some o -> inside so o.
Proof. intros E. pose proof (last_from_spec rs so c) as H. rewrite E in H. apply H. Qed.
Lemma put_visit (a : arr V) p w valuesel : shp a = S' -> good_visit valuesel p w ->
  exists b, np_put g a (snd p) valuesel = Ok b /\ shp b = S' /\ forall c, elt b c = upd g w (fst p) c (elt a c).
Proof.
  intros Ha (H1 & H2 & H3 & vb & H4 & H5). unfold np_put. rewrite Ha, H2. cbn [bind]. rewrite H3. cbn [bind]. rewrite H4. cbn [bind].
  eexists. split; [reflexivity|]. split; [reflexivity|]. intros c. cbn [elt]. unfold upd. rewrite H1, Nat.eqb_refl.
  destruct (last_from (v_rs w) (v_so w) c) as [o|] eqn:E; [|reflexivity]. rewrite H5; [reflexivity|]. eapply last_from_inside; eauto.
Qed.
Lemma assign_all_ok ops v sel ndim ax pairs : forall i (vis : list (visit V)) st,
  (forall p, In p pairs -> shp (st (fst p)) = S') ->
  length pairs = length vis ->
  (forall k p w, nth_error pairs k = Some p -> nth_error vis k = Some w ->
     exists valuesel, (match sel, v with
                       | Some s, _ => Ok s
                       | None, Array a => let! p := value_part a ndim ax (i + k) in apply_ops ops p
                       | None, Scalar _ => Err TypeError
                       end) = Ok valuesel /\ good_visit valuesel p w) ->
  exists st', assign_all vadd vsub vmul vdiv vand vor method ops v sel ndim ax i pairs st = Ok st' /\
    (forall a, ~ In a (map fst pairs) -> st' a = st a) /\
    (forall a, shp (st' a) = shp (st a)) /\
    (forall a c, elt (st' a) c = fold_left (fun x w => upd g w a c x) vis (elt (st a) c)).
Proof.
  induction pairs as [|[arg ind] pairs IH]; intros i vis st Hsh Hl Hp.
  - destruct vis; [|discriminate]. exists st. cbn. auto.
  - destruct vis as [|w vis]; [discriminate|].
    destruct (Hp 0 _ _ eq_refl eq_refl) as (valuesel & Hv & Hgood). rewrite Nat.add_0_r in Hv.
    destruct (put_visit (st arg) (arg, ind) w valuesel (Hsh _ (or_introl eq_refl)) Hgood) as (b & Hb & Hbs & Hbe).
    cbn [fst snd] in *.
    destruct (IH (S i) vis (write st arg b)) as (st' & H1 & H2 & H3 & H4).
    { intros p Hi. unfold write. destruct (Nat.eqb _ _); [assumption|]. apply Hsh. now right. }
    { cbn in Hl. lia. }
    { intros k p w' Hk Hw'. replace (S i + k) with (i + S k) by lia. now apply (Hp (S k)). }
    exists st'. split; [|split; [|split]].
    + cbn [assign_all]. rewrite Hv. cbn [bind]. rewrite Hg, Hb. cbn [bind]. exact H1.
    + intros a Ha. cbn in Ha. rewrite H2 by tauto. unfold write. destruct (Nat.eqb_spec a arg); [subst; tauto|reflexivity].
    + intros a. rewrite H3. unfold write. destruct (Nat.eqb_spec a arg); [subst a|reflexivity]. rewrite Hbs. symmetry. apply (Hsh (arg, ind)). now left.
    + intros a c. rewrite H4. cbn [fold_left]. f_equal. unfold write. destruct (Nat.eqb_spec a arg).
      * subst a. apply Hbe.
      * unfold upd. destruct Hgood as (-> & _). cbn [fst]. destruct (Nat.eqb_spec arg a); [congruence|reflexivity].
Qed.
End Loop.

(* ---- the loop on a stack ---- *)
Lemma insert_inj i (x y : nat) l m : i <= length l -> length l = length m -> insert_at i x l = insert_at i y m -> x = y /\ l = m.
Proof.
  intros Hi Hl E. split.
  - rewrite <- (nth_insert_same i x l 0), E by assumption. apply nth_insert_same. lia.
  - rewrite <- (remove_insert_at i x l), E by assumption. apply remove_insert_at. lia.
Qed.
Lemma inside_split i n s o : i <= length s -> inside (insert_at i n s) o -> nth i o 0 < n /\ inside s (remove_at i o) /\ o = insert_at i (nth i o 0) (remove_at i o).
Proof.
  intros Hi Ho. pose proof (inside_length _ _ Ho) as Hl. rewrite length_insert_at in Hl.
  split; [|split].
  - apply (inside_nth_lt _ _ i) in Ho; [|rewrite length_insert_at; lia]. now rewrite nth_insert_same in Ho.
  - apply (inside_remove i) in Ho; [|rewrite length_insert_at; lia]. now rewrite remove_insert_at in Ho.
  - symmetry. apply insert_remove_at. lia.
Qed.
Section Stack.
Context {V : Type} (vadd vsub vmul vdiv vand vor : V -> V -> V).
Context (S' : list nat) (ax : nat) (method : chars) (g : V -> V -> V).
Hypothesis Hg : method_op vadd vsub vmul vdiv vand vor method = Some g.
Hypothesis Hax : ax <= length S'.
Context (st : store V) (args : list nat).
Hypothesis Hnd : NoDup args.
Hypothesis Hsh : Forall (fun a => shp (st a) = S') args.
Lemma loop_stack (ops : list op) (v : value V) sel ndim axo ps rs so so' (rsk : nat -> list rent) lst (emb : nat -> list nat -> list nat) (vb : list nat -> V) :
  Forall (fun p => p < length args) ps ->
  length lst = length ps ->
  (forall k i, nth_error lst k = Some i -> resolve_all S' i = Ok (rsk k) /\ out_shape (rsk k) = Ok so') ->
  (forall k o, k < length ps -> length (source (rsk k) o) = length S') ->
  (forall k, k < length ps -> exists vs, (match sel, v with
                       | Some s, _ => Ok s
                       | None, Array a => let! p := value_part a ndim axo k in apply_ops ops p
                       | None, Scalar _ => Err TypeError
                       end) = Ok vs /\ exists vbk, np_broadcast vs so' = Ok vbk /\ forall o, inside so' o -> elt vbk o = vb (emb k o)) ->
  (forall k o, k < length ps -> inside so' o -> inside so (emb k o) /\ source rs (emb k o) = insert_at ax (nth k ps 0) (source (rsk k) o)) ->
  (forall o, inside so o -> exists k o', k < length ps /\ inside so' o' /\ o = emb k o') ->
  (forall k o1 o2, k < length ps -> inside so' o1 -> inside so' o2 -> lex o1 o2 -> lex (emb k o1) (emb k o2)) ->
  (forall k1 k2 o1 o2, k1 < k2 < length ps -> nth k1 ps 0 = nth k2 ps 0 -> inside so' o1 -> inside so' o2 ->
     source (rsk k1) o1 = source (rsk k2) o2 -> lex (emb k1 o1) (emb k2 o2)) ->
  (forall p q r, g (g p q) r = g p r) \/ NoDup ps ->
  exists st', assign_all vadd vsub vmul vdiv vand vor method ops v sel ndim axo 0 (combine (pick args ps) lst) st = Ok st' /\
    (forall a, ~ In a args -> st' a = st a) /\ (forall a, shp (st' a) = shp (st a)) /\
    (forall p a c, nth_error args p = Some a -> inside S' c ->
       elt (st' a) c = match last_from rs so (insert_at ax p c) with Some o => g (elt (st a) c) (vb o) | None => elt (st a) c end).
Proof.
  intros Hps Hlst Hres Hsl Hval Hemb Hcov Hmon Hord Hidem.
  pose proof (pick_Forall2 args ps Hps) as Hpick.
  set (l := pick args ps) in *.
  assert (length l = length ps) as Hll by (symmetry; clear - Hpick; induction Hpick; cbn; auto).
  set (vis := map (fun ka : nat * nat => {| place := snd ka; v_rs := rsk (fst ka); v_so := so'; v_val := fun o => vb (emb (fst ka) o) |}) (combine (seq 0 (length l)) l)).
  assert (forall k w, nth_error vis k = Some w -> exists a, nth_error l k = Some a /\
            w = {| place := a; v_rs := rsk k; v_so := so'; v_val := fun o => vb (emb k o) |}) as Hvis.
  { intros k w Hk. unfold vis in Hk. rewrite nth_error_map in Hk.
    destruct (nth_error l k) as [a|] eqn:Ea.
    - assert (nth_error (combine (seq 0 (length l)) l) k = Some (k, a)) as E.
      { clear - Ea. assert (forall z, nth_error (combine (seq z (length l)) l) k = Some (z + k, a)) as H; [|apply H].
        revert k Ea. induction l as [|b l IH]; intros [|k] Ea z; try discriminate; cbn in *.
        - injection Ea as ->. now rewrite Nat.add_0_r.
        - rewrite IH by assumption. f_equal. f_equal. lia. }
      rewrite E in Hk. cbn in Hk. injection Hk as <-. exists a. auto.
    - exfalso. apply nth_error_None in Ea. assert (nth_error (combine (seq 0 (length l)) l) k = None) as E.
      { apply nth_error_None. rewrite combine_length, seq_length. lia. }
      rewrite E in Hk. discriminate. }
  assert (forall k a, nth_error l k = Some a -> k < length ps /\ nth_error args (nth k ps 0) = Some a) as Hlk.
  { intros k a Ha. destruct (Forall2_nth_error _ _ _ k a Hpick Ha) as (p & H1 & H2).
    split; [apply nth_error_Some; congruence|]. now rewrite (nth_error_nth _ _ 0 H1). }
  assert (length vis = length ps) as Hvl by (unfold vis; rewrite map_length, combine_length, seq_length; lia).
  destruct (assign_all_ok vadd vsub vmul vdiv vand vor S' method g Hg ops v sel ndim axo (combine l lst) 0 vis st) as (st' & H1 & H2 & H3 & H4).
  { intros [a i] Hi. apply in_combine_l in Hi. cbn [fst]. apply In_nth_error in Hi. destruct Hi as (k & Hk).
    destruct (Hlk k a Hk) as [_ Ha]. rewrite Forall_forall in Hsh. apply Hsh. eapply nth_error_In; eauto. }
  { rewrite combine_length. lia. }
  { intros k [a i] w Hk Hw. cbn [plus].
    assert (nth_error l k = Some a /\ nth_error lst k = Some i) as [Ha Hi].
    { clear - Hk. revert lst k Hk. induction l as [|b l IH]; intros [|j lst] [|k] Hk; try discriminate; cbn in *.
      - injection Hk as -> ->. auto.
      - now apply IH. }
    destruct (Hlk k a Ha) as [Hk1 _]. destruct (Hval k Hk1) as (vs & Hvs & vbk & Hb1 & Hb2).
    exists vs. split; [assumption|]. destruct (Hvis k w Hw) as (a' & Ha' & ->). destruct (Hres k i Hi) as [Hr1 Hr2].
    unfold good_visit. cbn [place v_rs v_so v_val fst snd]. split; [congruence|]. split; [assumption|]. split; [assumption|]. eauto. }
  exists st'. split; [assumption|]. split; [|split; [assumption|]].
  - intros a Ha. apply H2. intros Hi. apply Ha. apply in_map_iff in Hi. destruct Hi as ([a' i] & E & Hi). cbn in E. subst a'.
    apply in_combine_l in Hi. apply In_nth_error in Hi. destruct Hi as (k & Hk). destruct (Hlk k a Hk) as [_ H]. eapply nth_error_In; eauto.
  - intros p a c Hp Hc. rewrite H4.
    assert (forall k a', nth_error l k = Some a' -> a' = a -> nth k ps 0 = p) as Hplace.
    { intros k a' Hk ->. destruct (Hlk k a Hk) as [Hk1 Hk2]. rewrite NoDup_nth_error in Hnd. apply Hnd; [|congruence].
      apply nth_error_Some. congruence. }
    apply (visits_equal g a c (elt (st a) c) vis rs so (insert_at ax p c) vb emb).
    + intros o Ho Es. destruct (Hcov o Ho) as (k & o' & Hk & Ho' & ->). destruct (Hemb k o' Hk Ho') as [_ Hs]. rewrite Hs in Es.
      apply insert_inj in Es; [|rewrite Hsl; assumption|rewrite Hsl by assumption; symmetry; now apply inside_length].
      destruct Es as [Ep Ec].
      destruct (nth_error vis k) as [w|] eqn:Ew; [|apply nth_error_None in Ew; lia].
      destruct (Hvis k w Ew) as (a' & Ha' & Ewd). exists k, w, o'. split; [assumption|]. rewrite Ewd. cbn [place v_so v_rs].
      split; [|auto]. destruct (Hlk k a' Ha') as [_ Ha2]. congruence.
    + intros k w o' Ew Ep Ho' Es. destruct (Hvis k w Ew) as (a' & Ha' & ->). cbn [place v_so v_rs v_val] in *.
      destruct (Hlk k a' Ha') as [Hk _]. destruct (Hemb k o' Hk Ho') as [E1 E2]. split; [assumption|]. split; [|reflexivity].
      rewrite E2, Es. f_equal. now apply (Hplace k a').
    + intros k w o1 o2 Ew Ho1 Ho2 Hlx. destruct (Hvis k w Ew) as (a' & Ha' & ->). cbn [v_so] in *. destruct (Hlk k a' Ha') as [Hk _]. now apply Hmon.
    + intros k1 k2 w1 w2 o1 o2 Hk E1 E2 P1 P2 I1 I2 X1 X2. destruct (Hvis k1 w1 E1) as (a1 & Ha1 & ->). destruct (Hvis k2 w2 E2) as (a2 & Ha2 & ->).
      cbn [place v_so v_rs] in *. destruct (Hlk k2 a2 Ha2) as [Hk2 _].
      apply Hord; [lia| |assumption|assumption|congruence]. rewrite (Hplace k1 a1), (Hplace k2 a2); auto.
    + destruct Hidem as [H|H]; [now left|right]. intros k1 k2 w1 w2 E1 E2 P1 P2.
      destruct (Hvis k1 w1 E1) as (a1 & Ha1 & ->). destruct (Hvis k2 w2 E2) as (a2 & Ha2 & ->). cbn [place] in *.
      destruct (Hlk k1 a1 Ha1) as [Hk1 _]. destruct (Hlk k2 a2 Ha2) as [Hk2 _].
      rewrite (NoDup_nth ps 0) in H. apply H; [assumption..|]. rewrite (Hplace k1 a1), (Hplace k2 a2); auto.
Qed.
End Stack.

Lemma move_same n q : append_transpose [] (move_axis n q q) = Ok [].
Proof. unfold move_axis. now rewrite Nat.eqb_refl. Qed.
Lemma no_inside so o : In 0 so -> inside so o -> False.
Proof.
  intros H0 Ho. apply In_nth_error in H0. destruct H0 as (k & Hk). apply inside_nth in Ho. destruct Ho as [_ Ho]. specialize (Ho k).
  assert (k < length so) by (apply nth_error_Some; congruence). rewrite (nth_error_nth _ _ 0 Hk) in Ho. lia.
Qed.
Lemma nth_error_repeat_some {A} (x : A) n k y : nth_error (repeat x n) k = Some y -> y = x.
Proof. intros H. apply nth_error_In in H. now apply repeat_spec in H. Qed.

Section Main.
Context {V : Type} (vadd vsub vmul vdiv vand vor : V -> V -> V).
Context (S' : list nat) (ax : nat) (method : chars) (g : V -> V -> V).
Hypothesis Hg : method_op vadd vsub vmul vdiv vand vor method = Some g.
Hypothesis Hax : ax <= length S'.
Context (st : store V) (args : list nat).
Hypothesis Hnd : NoDup args.
Hypothesis Hsh : Forall (fun a => shp (st a) = S') args.
(* the value of the part with number k when the value is taken apart along the axis *)
Lemma part_value (a : arr V) (vb : list nat -> V) axo m so' k : axo <= length so' -> shp a = insert_at axo m so' ->
  (forall o, inside (shp a) o -> vb o = elt a o) -> k < m ->
  exists vs, (let! p := value_part a (length (shp a)) axo k in apply_ops [] p) = Ok vs /\
    exists vbk, np_broadcast vs so' = Ok vbk /\ forall o, inside so' o -> elt vbk o = vb (insert_at axo k o).
Proof.
  intros Hle Hs Hv Hk.
  destruct (value_part_ok a axo k) as (p & H1 & H2 & H3).
  { rewrite Hs, length_insert_at. lia. }
  { rewrite Hs. rewrite nth_insert_same; assumption. }
  rewrite H1. cbn [bind apply_ops]. exists p. split; [reflexivity|].
  assert (shp p = so') as Hp by (rewrite H2, Hs; now apply remove_insert_at).
  destruct (broadcast_same p) as (vbk & B1 & B2). rewrite Hp in *. exists vbk. split; [assumption|].
  intros o Ho. rewrite B2, H3 by assumption. symmetry. apply Hv. rewrite Hs. now apply inside_insert.
Qed.
Lemma setitem_tuple (i : index) idx rs so L axis v vb :
  positiveaxis axis (S (length S')) = Ok ax ->
  expand i (S (length S')) = Ok (Tup idx) ->
  resolve_all (insert_at ax (length args) S') idx = Ok rs ->
  out_shape rs = Ok so ->
  existsb is_new idx = false ->
  uni L idx -> bool_lists_ok idx ax -> placed idx ax ->
  (forall p q r, g (g p q) r = g p r) \/ once idx ax (length args) ->
  match v with Array a => shp a = so /\ (forall o, inside so o -> vb o = elt a o) | Scalar x => forall o, vb o = x end ->
  exists st', setitem vadd vsub vmul vdiv vand vor st args i (S (length S')) v method (Some (insert_at ax (length args) S')) axis = Ok st' /\
    (forall a, ~ In a args -> st' a = st a) /\ (forall a, shp (st' a) = shp (st a)) /\
    (forall p a c, nth_error args p = Some a -> inside S' c ->
       elt (st' a) c = match last_from rs so (insert_at ax p c) with Some o => g (elt (st a) c) (vb o) | None => elt (st a) c end).
Proof.
  intros Hpa Hexp Hr Hso Hnew Hu Hb Hpl Honce Hv.
  assert (dims idx = idx) as Hdims.
  { apply filter_id. intros j Hj. destruct (is_new j) eqn:E; [|reflexivity].
    assert (existsb is_new idx = true) by (apply existsb_exists; eauto). congruence. }
  assert (length idx = S (length S')) as Hdl.
  { pose proof (resolve_all_length _ _ _ Hr) as H. rewrite nnew_no_new in H by now apply no_new_no_KN.
    rewrite map_length in H. rewrite <- H. apply length_insert_at. }
  destruct (nth_error idx ax) as [ia|] eqn:Eia.
  2:{ apply nth_error_None in Eia. lia. }
  pose proof (nth_error_remove_insert _ _ _ Eia) as Esplit.
  set (idx' := remove_at ax idx) in *.
  assert (length idx' = length S') as Hl' by (unfold idx'; rewrite length_remove_at; lia).
  assert (Hnew0 := Hnew). rewrite Esplit in Hnew0.
  assert (Hr0 := Hr). rewrite Esplit in Hr0.
  destruct (resolve_all_split ax (length args) ia idx' S' rs Hax Hnew0 Hl' Hr0) as (r0 & rs' & Ers & Hr1 & Hr2 & Hl2).
  destruct (existsb_new_remove _ _ _ Hnew0) as [Hnew' Hia].
  assert (no_new (map kind_of idx')) as Hnn' by now apply no_new_no_KN.
  pose proof (resolve_all_kind _ _ _ Hr2) as Hk2.
  assert (no_new (map rkind rs')) as Hnn by now rewrite Hk2.
  assert (ia <> New) as Hia' by (intros ->; discriminate).
  assert (uni L idx') as Hu'.
  { intros j m Hj. apply Hu. rewrite Esplit. apply In_insert_at; [lia|now right]. }
  pose proof (resolve_bound _ _ _ Hr1) as Hbound.
  assert ((forall p q r, g (g p q) r = g p r) \/ NoDup (positions r0)) as Hidem.
  { destruct Honce as [H|H]; [now left|right]. now apply (H ia r0). }
  unfold setitem. rewrite Hexp. cbn [bind].
  unfold extract_newaxis. rewrite Hnew. cbn [bind].
  rewrite (shape_after_ok L _ _ _ _ _ Hr Hso Hu).
  pose proof (extract_axis_ok idx' ia ax axis (length args) S' Hnew0 ltac:(lia) ltac:(lia) ltac:(rewrite Hl'; assumption)) as Hea.
  rewrite <- Esplit in Hea. rewrite Hea. clear Hea. cbn zeta. rewrite <- Hk2.
  pose proof (select_ok args ia r0 Hr1 Hia') as Hsel.
  pose proof (resolve_kind _ _ _ Hr1) as Hk1.
  assert (forall k o, length (source (map (dec1 k) rs') o) = length S') as Hsld.
  { intros k o. rewrite source_length; [rewrite map_length; assumption|now apply dec_no_new]. }
  assert (forall o, length (source rs' o) = length S') as Hsl.
  { intros o. rewrite source_length; assumption. }
  pose proof (resolve_distinct _ _ _ Hr2) as Hdist.
  assert (Hso0 := Hso). rewrite Ers in Hso0.
  assert (kadv (map rkind rs') = true -> selected ia = None ->
    contiguous (map kflag (insert_at ax (kind_of ia) (map rkind rs'))) = true \/
    (0 < ax /\ match map rkind rs' with k :: _ => kflag k = true | [] => False end)) as Hcases.
  { intros Ha Hs. rewrite Hk2 in *. eapply placed_kinds; eauto. lia. }
  assert (ax <= length (map rkind rs')) as Haxk by (rewrite map_length; lia).
  destruct (kind_of ia) eqn:Ek.
  - destruct ia; discriminate.
  - (* integer *)
    destruct r0 as [|?|p0|?]; try discriminate.
    assert (is_list ia = false) as El by (destruct ia; discriminate || reflexivity).
    assert (selected ia = None) as Es by (destruct ia; discriminate || reflexivity).
    destruct (out_shape_insert_other (RInt p0) rs' ax so ltac:(discriminate) Hso0) as (so' & Hso').
    cbn [positions] in *. inversion Hbound as [|? ? Hp0 _]. subst x l.
    assert (kadv (map rkind rs') = true -> kpos (map rkind rs') = kpos (insert_at ax KI (map rkind rs'))) as Hq.
    { intros Ha. apply place_int; auto. }
    destruct (src_int (length args) S' ax Hax rs' Hnn Hl2 p0 so so' Hp0 Hso0 Hso' Hq) as [Eso Hsrc]. subst so'.
    replace (if kadv (map rkind rs') then _ else _) with (@Ok (list ind * option (list nat) * ind * option nat * option nat * list op) (idx', Some S', ia, Some (length args), None, [])).
    2:{ destruct (kadv (map rkind rs')); [|reflexivity]. rewrite <- Hq by reflexivity. now rewrite move_same. }
    cbn [bind app]. rewrite Hsel. cbn [bind]. rewrite El.
    assert (length (pick args [p0]) = 1) as Hpl1.
    { pose proof (pick_Forall2 args [p0] Hbound) as H. revert H. generalize (pick args [p0]). intros l H. inversion H as [|? ? ? ? _ H']. inversion H'. reflexivity. }
    rewrite Hpl1. cbn [repeat bind].
    assert (exists s, value_ops [] v = Ok s /\ exists vbk, np_broadcast s so = Ok vbk /\ forall o, inside so o -> elt vbk o = vb o) as (s & Hs1 & Hs2).
    { destruct v as [x|a]; cbn [value_ops apply_ops].
      - eexists. split; [reflexivity|]. destruct (broadcast_scalar x so) as (vbk & B1 & B2). exists vbk. split; [assumption|]. intros o _. now rewrite B2, Hv.
      - destruct Hv as [Ha Hv]. exists a. split; [reflexivity|]. destruct (broadcast_same a) as (vbk & B1 & B2). rewrite Ha in *. exists vbk.
        split; [assumption|]. intros o Ho. rewrite B2 by assumption. symmetry. now apply Hv. }
    destruct (loop_stack vadd vsub vmul vdiv vand vor S' ax method g Hg Hax st args Hnd Hsh [] v (Some s) (length so) 0 [p0] rs so so
                (fun _ => rs') [idx'] (fun _ o => o) vb Hbound) as (st' & H1 & H2 & H3 & H4).
    + reflexivity.
    + intros [|[|k]] j Hj; try discriminate. injection Hj as <-. auto.
    + auto.
    + intros k _. exists s. split; [reflexivity|]. exact Hs2.
    + intros k o Hk Ho. split; [assumption|]. rewrite Ers, Hsrc by assumption. cbn in Hk. assert (k = 0) as -> by lia. reflexivity.
    + intros o Ho. exists 0, o. cbn. auto.
    + auto.
    + intros k1 k2 o1 o2 Hk. cbn in Hk. lia.
    + assumption.
    + exists st'. split; [|auto]. destruct v; rewrite Hs1; exact H1.
  - (* slice *)
    destruct r0 as [|ps|?|?]; try discriminate.
    assert (is_list ia = false) as El by (destruct ia; discriminate || reflexivity).
    assert (selected ia = None) as Es by (destruct ia; discriminate || reflexivity).
    destruct (out_shape_insert_other (RSl ps) rs' ax so ltac:(discriminate) Hso0) as (so' & Hso').
    cbn [positions] in *.
    assert (kadv (map rkind rs') = true -> ex_q ax (map rkind rs') = kpos (insert_at ax KS (map rkind rs'))) as Hq.
    { intros Ha. apply place_slice; auto. }
    replace (if kadv (map rkind rs') then _ else _) with
      (@Ok (list ind * option (list nat) * ind * option nat * option nat * list op) (idx', Some S', ia, Some (length args), Some (ex_axo ax (map rkind rs')), [])).
    2:{ destruct (kadv (map rkind rs')); [|reflexivity]. rewrite <- Hq by reflexivity. now rewrite move_same. }
    cbn [bind app]. rewrite Hsel. cbn [bind]. rewrite El. cbn [bind].
    pose proof (pick_Forall2 args ps Hbound) as Hpick.
    assert (length (pick args ps) = length ps) as Hpl1 by (symmetry; clear - Hpick; induction Hpick; cbn; auto).
    rewrite Hpl1.
    set (axo := ex_axo ax (map rkind rs')) in *.
    assert (ps <> [] -> so = insert_at axo (length ps) so' /\ axo <= length so' /\ forall k o, k < length ps -> inside so' o ->
              source rs (insert_at axo k o) = insert_at ax (nth k ps 0) (source rs' o)) as Hsrc.
    { intros Hne. rewrite Ers.
      destruct (src_slice (length args) S' ax Hax rs' Hnn Hl2 ps so so' 0 [] Hbound Hne Hso0 Hso' Hq) as (E1 & E2 & _).
      split; [exact E1|]. split; [exact E2|]. intros k o Hk Ho.
      destruct (src_slice (length args) S' ax Hax rs' Hnn Hl2 ps so so' k o Hbound Hne Hso0 Hso' Hq) as (_ & _ & E3). now apply E3. }
    pose proof (resolve_slice_nodup _ _ _ Hr1) as Hndp.
    assert (forall sel ndim a0, (forall k, k < length ps -> ps <> [] -> exists vs, (match sel, v with
                       | Some s, _ => Ok s
                       | None, Array a => let! p := value_part a ndim a0 k in apply_ops [] p
                       | None, Scalar _ => Err TypeError
                       end) = Ok vs /\ exists vbk, np_broadcast vs so' = Ok vbk /\ forall o, inside so' o -> elt vbk o = vb (insert_at axo k o)) ->
      exists st', assign_all vadd vsub vmul vdiv vand vor method [] v sel ndim a0 0 (combine (pick args ps) (repeat idx' (length ps))) st = Ok st' /\
    (forall a, ~ In a args -> st' a = st a) /\ (forall a, shp (st' a) = shp (st a)) /\
    (forall p a c, nth_error args p = Some a -> inside S' c ->
       elt (st' a) c = match last_from rs so (insert_at ax p c) with Some o => g (elt (st a) c) (vb o) | None => elt (st a) c end)) as Hloop.
    { intros sel ndim a0 Hsv. assert (forall k, k < length ps -> ps <> []) as Hne by (intros k Hk ->; cbn in Hk; lia).
      apply (loop_stack vadd vsub vmul vdiv vand vor S' ax method g Hg Hax st args Hnd Hsh [] v sel ndim a0 ps rs so so'
                (fun _ => rs') (repeat idx' (length ps)) (fun k o => insert_at axo k o) vb Hbound).
      + apply repeat_length.
      + intros k j Hj. apply nth_error_repeat_some in Hj. subst j. auto.
      + auto.
      + intros k Hk. apply Hsv; [assumption|]. eauto.
      + intros k o Hk Ho. destruct (Hsrc (Hne k Hk)) as (E1 & E2 & E3). split; [|now apply E3]. rewrite E1. now apply inside_insert.
      + intros o Ho. destruct ps as [|p0 ps0].
        * exfalso. eapply no_inside; [|exact Ho]. eapply zero_slice; [exact Hso0|]. apply In_insert_at; [lia|now left].
        * destruct (Hsrc ltac:(discriminate)) as (E1 & E2 & _). rewrite E1 in Ho. destruct (inside_split _ _ _ _ E2 Ho) as (I1 & I2 & I3).
          exists (nth axo o 0), (remove_at axo o). auto.
      + intros k o1 o2 Hk I1 I2 Hlx. destruct (Hsrc (Hne k Hk)) as (_ & E2 & _).
        apply lex_insert; [rewrite (inside_length _ _ I1); assumption|now rewrite (inside_length _ _ I1), (inside_length _ _ I2)|now right].
      + intros k1 k2 o1 o2 Hk En. exfalso. rewrite (NoDup_nth ps 0) in Hndp. assert (k1 = k2); [|lia]. apply Hndp; lia.
      + assumption. }
    destruct v as [x|a].
    + cbn [value_ops bind]. apply Hloop. intros k Hk Hne. eexists. split; [reflexivity|].
      destruct (broadcast_scalar x so') as (vbk & B1 & B2). exists vbk. split; [assumption|]. intros o _. now rewrite B2, Hv.
    + destruct Hv as [Ha Hv]. apply Hloop. intros k Hk Hne. destruct (Hsrc Hne) as (E1 & E2 & _).
      rewrite <- Ha. apply (part_value a vb axo (length ps) so' k); [assumption|congruence| |assumption]. rewrite Ha. exact Hv.
  - (* list *)
    destruct r0 as [|?|?|ps]; try discriminate.
    assert (is_list ia = true) as El by (destruct ia; discriminate || reflexivity).
    cbn [positions] in *. cbn [bind app]. rewrite Hsel. cbn [bind]. rewrite El.
    assert (exists m, selected ia = Some m) as (m & Hm) by (destruct ia; try discriminate; cbn; eauto).
    destruct (selected_len _ _ _ _ Hr1 Hm) as (Hll & ps' & E & Hplen). injection E as <-.
    assert (m = L) as ->.
    { apply (Hu ia); [|assumption]. eapply nth_error_In; eauto. }
    rewrite Hll. rewrite (lengthadvanced_uni L _ _ _ Hr2 Hu' Hnew'). cbn [bind].
    assert (negb (Nat.eqb (if has_adv rs' then L else 0) 0) && negb (Nat.eqb (if has_adv rs' then L else 0) L) = false) as ->.
    { destruct (has_adv rs'); rewrite ?Nat.eqb_refl; cbn; [apply andb_false_r|reflexivity]. }
    assert (forall b, ~ In (Bools b) idx') as Hnb.
    { intros b Hi. apply In_nth_error in Hi. destruct Hi as (k & Hk).
      assert (selected ia <> None) as Hs by congruence.
      unfold bool_lists_ok in Hb. rewrite Hdims in Hb.
      set (k' := if k <? ax then k else S k).
      assert (nth_error idx k' = Some (Bools b)) as Hk'.
      { apply nth_error_nth with (d := New) in Hk as Hkn.
        assert (k < length idx') by (apply nth_error_Some; congruence).
        unfold idx' in Hkn. rewrite nth_remove_at in Hkn.
        unfold k'. destruct (Nat.ltb_spec k ax); rewrite <- Hkn; apply nth_error_nth'; lia. }
      specialize (Hb ia k' b Eia Hs Hk'). unfold k' in Hb. destruct (Nat.ltb_spec k ax); lia. }
    destruct (decompose_all L idx' S' rs' Hr2 Hu' Hnb) as (lst & Hdec & Hlst & Hres).
    rewrite Hdec. cbn [bind].
    assert (Forall (eq (length ps)) (adv_lens rs')) as Huni by (rewrite Hplen; eapply uni_adv; eauto).
    set (pp := kpos (insert_at ax KA (map rkind rs'))) in *. set (so' := kept_lens rs') in *.
    assert (ps <> [] -> so = insert_at pp (length ps) so' /\ pp <= length so' /\ forall k o, k < length ps -> inside so' o ->
              source rs (insert_at pp k o) = insert_at ax (nth k ps 0) (source (map (dec1 k) rs') o)) as Hsrc.
    { intros Hne. rewrite Ers.
      destruct (src_adv (length args) S' ax Hax rs' Hnn Hl2 ps so 0 [] Hbound Hne Huni Hso0) as (E1 & E2 & _).
      split; [exact E1|]. split; [exact E2|]. intros k o Hk Ho.
      destruct (src_adv (length args) S' ax Hax rs' Hnn Hl2 ps so k o Hbound Hne Huni Hso0) as (_ & _ & E3). now apply E3. }
    assert (forall sel ndim a0, (forall k, k < length ps -> ps <> [] -> exists vs, (match sel, v with
                       | Some s, _ => Ok s
                       | None, Array a => let! p := value_part a ndim a0 k in apply_ops [] p
                       | None, Scalar _ => Err TypeError
                       end) = Ok vs /\ exists vbk, np_broadcast vs so' = Ok vbk /\ forall o, inside so' o -> elt vbk o = vb (insert_at pp k o)) ->
      exists st', assign_all vadd vsub vmul vdiv vand vor method [] v sel ndim a0 0 (combine (pick args ps) lst) st = Ok st' /\
    (forall a, ~ In a args -> st' a = st a) /\ (forall a, shp (st' a) = shp (st a)) /\
    (forall p a c, nth_error args p = Some a -> inside S' c ->
       elt (st' a) c = match last_from rs so (insert_at ax p c) with Some o => g (elt (st a) c) (vb o) | None => elt (st a) c end)) as Hloop.
    { intros sel ndim a0 Hsv. assert (forall k, k < length ps -> ps <> []) as Hne by (intros k Hk ->; cbn in Hk; lia).
      apply (loop_stack vadd vsub vmul vdiv vand vor S' ax method g Hg Hax st args Hnd Hsh [] v sel ndim a0 ps rs so so'
                (fun k => map (dec1 k) rs') lst (fun k o => insert_at pp k o) vb Hbound).
      + lia.
      + intros k j Hj. split; [now apply Hres|]. unfold out_shape. rewrite dec_adv. unfold so'. now rewrite dec_kept.
      + auto.
      + intros k Hk. apply Hsv; [assumption|]. eauto.
      + intros k o Hk Ho. destruct (Hsrc (Hne k Hk)) as (E1 & E2 & E3). split; [|now apply E3]. rewrite E1. now apply inside_insert.
      + intros o Ho. destruct ps as [|p0 ps0].
        * exfalso. eapply no_inside; [|exact Ho]. unfold out_shape in Hso0.
          rewrite has_adv_kind, map_insert_at in Hso0. cbn [rkind] in Hso0. rewrite kadv_insert_true in Hso0.
          rewrite (broadcast_const 0) in Hso0.
          -- cbn in Hso0. injection Hso0 as <-. apply In_insert_at; [|now left].
             apply adv_pos_le. rewrite has_adv_kind, map_insert_at. apply kadv_insert_true.
          -- apply adv_lens_nonempty. rewrite has_adv_kind, map_insert_at. apply kadv_insert_true.
          -- cbn in Hplen. subst L. rewrite <- Ers. exact (uni_adv 0 idx _ rs Hr Hu).
        * destruct (Hsrc ltac:(discriminate)) as (E1 & E2 & _). rewrite E1 in Ho. destruct (inside_split _ _ _ _ E2 Ho) as (I1 & I2 & I3).
          exists (nth pp o 0), (remove_at pp o). auto.
      + intros k o1 o2 Hk I1 I2 Hlx. destruct (Hsrc (Hne k Hk)) as (_ & E2 & _).
        apply lex_insert; [rewrite (inside_length _ _ I1); assumption|now rewrite (inside_length _ _ I1), (inside_length _ _ I2)|now right].
      + intros k1 k2 o1 o2 Hk En I1 I2 Esr.
        assert (o1 = o2) as -> by (eapply (dec_source_inj k1 k2 rs' o1 o2 (length ps)); eauto; lia).
        assert (ps <> []) as Hnz by (apply (Hne k2); lia).
        destruct (Hsrc Hnz) as (_ & E2 & _).
        apply lex_insert; [rewrite (inside_length _ _ I1); assumption|reflexivity|left; split; [lia|reflexivity]].
      + assumption. }
    destruct v as [x|a].
    + cbn [value_ops bind]. apply Hloop. intros k Hk Hne. eexists. split; [reflexivity|].
      destruct (broadcast_scalar x so') as (vbk & B1 & B2). exists vbk. split; [assumption|]. intros o _. now rewrite B2, Hv.
    + destruct Hv as [Ha Hv]. apply Hloop. intros k Hk Hne. destruct (Hsrc Hne) as (E1 & E2 & _).
      rewrite <- Ha. apply (part_value a vb pp (length ps) so' k); [assumption|congruence| |assumption]. rewrite Ha. exact Hv.
Qed.
End Main.

(* Assigning to the lazily assembled stack is assigning to the stack *)
Lemma setitem_stack {V} (vadd vsub vmul vdiv vand vor : V -> V -> V) method g st args ax axis full i l r v full' :
  method_op vadd vsub vmul vdiv vand vor method = Some g ->
  NoDup args ->
  np_stack (map st args) ax = Ok full ->
  ax < length (shp full) -> positiveaxis axis (length (shp full)) = Ok ax ->
  supported i (length (shp full)) ->
  np_expand (tuple_of i) (length (shp full)) = Ok l ->
  ~ In New l -> uniform l -> bool_lists_ok l ax -> placed l ax ->
  (forall a b c, g (g a b) c = g a c) \/ once l ax (length args) ->
  np_getitem full i = Ok r ->
  match v with Scalar _ => True | Array a => shp a = shp r end ->
  np_putitem g full i (as_array v) = Ok full' ->
  exists st' full2, setitem vadd vsub vmul vdiv vand vor st args i (length (shp full)) v method (Some (shp full)) axis = Ok st' /\
    (forall a, ~ In a args -> st' a = st a) /\
    np_stack (map st' args) ax = Ok full2 /\ arr_eq full2 full'.
Proof.
  intros Hg Hnd Hst Hax Hpa Hs Hexp Hnew (L & Hu) Hb Hpl Honce Hget Hv Hput.
  assert (args <> []) as Hne by (intros ->; discriminate).
  destruct args as [|a0 args0]; [congruence|]. set (args := a0 :: args0) in *.
  unfold np_stack in Hst. cbn [map args] in Hst. change (st a0 :: map st args0) with (map st args) in Hst.
  destruct (forallb _ _) eqn:Ef; [|discriminate]. injection Hst as <-. cbn [shp] in *.
  rewrite map_length in *. rewrite length_insert_at in *.
  set (S' := shp (st a0)) in *.
  assert (Forall (fun a => shp (st a) = S') args) as Hgen.
  { apply Forall_forall. intros a Ha. rewrite forallb_forall in Ef. apply shape_eqb_eq, Ef. now apply in_map. }
  assert (ax <= length S') as Hax' by lia. assert (1 <= S (length S')) as H1S by lia.
  unfold np_getitem in Hget. cbn [shp] in Hget. rewrite length_insert_at, Hexp in Hget. cbn [bind] in Hget. unfold np_get in Hget. cbn [shp] in Hget.
  apply bind_Ok in Hget. destruct Hget as (rs & Hr & Hget). apply bind_Ok in Hget. destruct Hget as (so & Hso & E). injection E as <-. cbn [shp] in Hv.
  unfold np_putitem in Hput. cbn [shp] in Hput. rewrite length_insert_at, Hexp in Hput. cbn [bind] in Hput. unfold np_put in Hput. cbn [shp] in Hput.
  rewrite Hr in Hput. cbn [bind] in Hput. rewrite Hso in Hput. cbn [bind] in Hput.
  apply bind_Ok in Hput. destruct Hput as (vb & Hvb & E). injection E as <-.
  assert (existsb is_new l = false) as Hnew'.
  { destruct (existsb is_new l) eqn:E; [|reflexivity]. exfalso. apply existsb_exists in E. destruct E as (j & Hj & Ej). destruct j; discriminate || auto. }
  assert (match v with Array a => shp a = so /\ (forall o, inside so o -> elt vb o = elt a o) | Scalar x => forall o, elt vb o = x end) as Hval.
  { destruct v as [x|a]; cbn [as_array] in Hvb.
    - destruct (broadcast_scalar x so) as (vb' & B1 & B2). assert (vb' = vb) as <- by congruence. assumption.
    - split; [assumption|]. destruct (broadcast_same a) as (vb' & B1 & B2). rewrite Hv in *. assert (vb' = vb) as <- by congruence. assumption. }
  destruct (setitem_tuple vadd vsub vmul vdiv vand vor S' ax method g Hg Hax' st args Hnd Hgen i l rs so L axis v (elt vb)
              Hpa (expand_np _ _ _ H1S Hs Hexp) Hr Hso Hnew' Hu Hb Hpl Honce Hval) as (st' & H1 & H2 & H3 & H4).
  exists st'. unfold np_stack. cbn [map args]. change (st' a0 :: map st' args0) with (map st' args).
  rewrite H3. fold S'.
  assert (forallb (fun b => shape_eqb (shp b) S') (map st' args) = true) as ->.
  { apply forallb_forall. intros x Hx. apply in_map_iff in Hx. destruct Hx as (a & <- & Ha). rewrite H3.
    rewrite forallb_forall in Ef. apply Ef. now apply in_map. }
  eexists. split; [exact H1|]. split; [exact H2|]. split; [reflexivity|]. rewrite map_length.
  split; [reflexivity|]. cbn [shp elt]. intros c Hc. rewrite ?map_length in Hc.
  destruct (inside_split _ _ _ _ Hax' Hc) as (I1 & I2 & I3).
  set (p := nth ax c 0) in *. set (c' := remove_at ax c) in *.
  destruct (nth_error args p) as [a|] eqn:Ea; [|apply nth_error_None in Ea; lia].
  assert (forall f : nat -> arr V, nth p (map f args) (f a0) = f a) as Hn.
  { intros f. apply nth_error_nth. now apply map_nth_error. }
  change (match p with 0 => st' a0 | S m => nth m (map st' args0) (st' a0) end) with (nth p (map st' args) (st' a0)).
  change (match p with 0 => st a0 | S m => nth m (map st args0) (st a0) end) with (nth p (map st args) (st a0)).
  rewrite !Hn. rewrite (H4 p a c' Ea I2), <- I3. reflexivity.
Qed.

Lemma does_op {V} (vadd vsub vmul vdiv vand vor : V -> V -> V) method g :
  does vadd vsub vmul vdiv vand vor method g -> method_op vadd vsub vmul vdiv vand vor method = Some g.
Proof. now intros []. Qed.
Lemma op_does {V} (vadd vsub vmul vdiv vand vor : V -> V -> V) method g :
  method_op vadd vsub vmul vdiv vand vor method = Some g -> exists h, does vadd vsub vmul vdiv vand vor method h.
Proof.
  unfold method_op. intros H.
  repeat match type of H with (if chars_eqb method ?x then _ else _) = _ => destruct (chars_eqb method x) eqn:?E end; try discriminate;
  match goal with E : chars_eqb method _ = true |- _ => apply chars_eqb_spec in E; subst method end; eexists; constructor.
Qed.
Theorem setitem_is_assignment : forall V (vadd vsub vmul vdiv vand vor : V -> V -> V) method g st args ax axis full i l r v full',
  does vadd vsub vmul vdiv vand vor method g ->
  NoDup args ->
  np_stack (map st args) ax = Ok full ->
  ax < length (shp full) -> (axis = Z.of_nat ax \/ axis = Z.of_nat ax - Z.of_nat (length (shp full)))%Z ->
  supported i (length (shp full)) ->
  np_expand (tuple_of i) (length (shp full)) = Ok l ->
  ~ In New l -> uniform l -> bool_lists_ok l ax -> placed l ax ->
  (forall a b c, g (g a b) c = g a c) \/ once l ax (length args) ->
  np_getitem full i = Ok r ->
  match v with Scalar _ => True | Array a => shp a = shp r end ->
  np_putitem g full i (as_array v) = Ok full' ->
  exists st' full2, setitem vadd vsub vmul vdiv vand vor st args i (length (shp full)) v method (Some (shp full)) axis = Ok st' /\
    (forall a, ~ In a args -> st' a = st a) /\
    np_stack (map st' args) ax = Ok full2 /\ arr_eq full2 full'.
Proof.
  intros V vadd vsub vmul vdiv vand vor method g st args ax axis full i l r v full' Hd Hnd Hst Hax Haxis.
  apply setitem_stack; try assumption. { now apply does_op. } now apply positiveaxis_ok.
Qed.

(* ---- whatever the index and the value ---- *)
Lemma select_In {Arg} (l : list Arg) i u a : select_args l i = Ok u -> In a u -> In a l.
Proof.
  assert (forall ps b, In b (pick l ps) -> In b l) as Hpick.
  { intros ps b Hb. unfold pick in Hb. apply in_flat_map in Hb. destruct Hb as (p & _ & Hb).
    destruct (nth_error l p) eqn:E; [|destruct Hb]. destruct Hb as [<-|[]]. eapply nth_error_In; eauto. }
  assert (forall z b, py_get l z = Ok b -> In b l) as Hget.
  { intros z b H. unfold py_get in H. destruct (py_pos _ _) as [k|]; [|discriminate]. destruct (nth_error l k) eqn:E; [|discriminate].
    injection H as <-. eapply nth_error_In; eauto. }
  assert (forall zs u0 b, mapM (py_get l) zs = Ok u0 -> In b u0 -> In b l) as mapM_In.
  { induction zs as [|z zs IH]; cbn; intros u0 b H Hb.
    - injection H as <-. destruct Hb.
    - apply bind_Ok in H. destruct H as (c & Hc & H). apply bind_Ok in H. destruct H as (u' & Hu & E). injection E as <-.
      destruct Hb as [<-|Hb]; eauto. }
  assert (forall m b, In b (compress l m) -> In b l) as compress_In.
  { clear. induction l as [|x l IH]; intros [|[] m] b H; cbn in H; try contradiction; [destruct H as [<-|H]|]; try (now left); right; eauto. }
  intros H Ha. destruct i; cbn in H; try discriminate.
  - apply bind_Ok in H. destruct H as (x & Hx & E). injection E as <-. destruct Ha as [<-|[]]. eauto.
  - apply bind_Ok in H. destruct H as (x & Hx & E). injection E as <-. destruct Ha as [<-|[]]. eauto.
  - apply bind_Ok in H. destruct H as (ps & _ & E). injection E as <-. eauto.
  - eapply mapM_In; eauto.
  - destruct l0 as [|b l0].
    + injection H as <-. destruct Ha.
    + injection H as <-. unfold listadvanced_bool in Ha. eapply compress_In; eauto.
Qed.
Section Any.
Context {V : Type} (vadd vsub vmul vdiv vand vor : V -> V -> V).
Notation assign_all := (assign_all vadd vsub vmul vdiv vand vor).
Notation setitem := (setitem vadd vsub vmul vdiv vand vor).
Lemma put_shape (g : V -> V -> V) a idx v b : np_put g a idx v = Ok b -> shp b = shp a.
Proof.
  unfold np_put. intros H. apply bind_Ok in H. destruct H as (rs & _ & H). apply bind_Ok in H. destruct H as (so & _ & H).
  apply bind_Ok in H. destruct H as (vb & _ & E). injection E as <-. reflexivity.
Qed.
Lemma assign_frame method ops v sel ndim ax pairs : forall i st st', assign_all method ops v sel ndim ax i pairs st = Ok st' ->
  (forall a, ~ In a (map fst pairs) -> st' a = st a) /\ (forall a, shp (st' a) = shp (st a)) /\
  (method_op vadd vsub vmul vdiv vand vor method = None -> st' = st).
Proof.
  induction pairs as [|[arg ind] pairs IH]; intros i st st' H; cbn [SetitemModel.assign_all] in H.
  - injection H as <-. auto.
  - apply bind_Ok in H. destruct H as (vs & _ & H). destruct (method_op _ _ _ _ _ _ method) as [g|] eqn:Eg; [|discriminate].
    apply bind_Ok in H. destruct H as (b & Hb & H). apply put_shape in Hb. destruct (IH _ _ _ H) as (I1 & I2 & _). split; [|split; [|discriminate]].
    + intros a Ha. cbn in Ha. rewrite I1 by tauto. unfold write. destruct (Nat.eqb_spec a arg); [subst; tauto|reflexivity].
    + intros a. rewrite I2. unfold write. destruct (Nat.eqb_spec a arg); [now subst|reflexivity].
Qed.
Lemma setitem_loop st args i ndim v method shapefull axis st' : setitem st args i ndim v method shapefull axis = Ok st' ->
  exists ops sel n ax pairs, assign_all method ops v sel n ax 0 pairs st = Ok st' /\ forall a, In a (map fst pairs) -> In a args.
Proof.
  unfold SetitemModel.setitem. intros H. apply bind_Ok in H. destruct H as (e & _ & H).
  destruct e as [[]|indexret]; try discriminate. { destruct l; discriminate. }
  apply bind_Ok in H. destruct H as ([idx ops2] & _ & H). apply bind_Ok in H. destruct H as ([[[[[rest srest] ia] sax] ax] ops1] & _ & H).
  apply bind_Ok in H. destruct H as (u & Hu & H). apply bind_Ok in H. destruct H as (sa & _ & H). apply bind_Ok in H. destruct H as (lst & _ & H).
  assert (forall a, In a (map fst (combine u lst)) -> In a args) as Hin.
  { intros a Ha. apply in_map_iff in Ha. destruct Ha as ([a' j] & E & Ha). cbn in E. subst a'. apply in_combine_l in Ha.
    destruct (nonchanging1 ia sax); [injection Hu as <-; assumption|]. eapply select_In; eauto. }
  destruct v as [x|a], ax as [ax|];
    try (apply bind_Ok in H; destruct H as (s & _ & H)); eexists _, _, _, _, _; (split; [exact H|exact Hin]).
Qed.
Theorem setitem_frame : forall st args i ndim v method shapefull axis st', setitem st args i ndim v method shapefull axis = Ok st' ->
  (forall a, ~ In a args -> st' a = st a) /\ (forall a, shp (st' a) = shp (st a)).
Proof.
  intros st args i ndim v method shapefull axis st' H. apply setitem_loop in H. destruct H as (ops & sel & n & ax & pairs & H & Hin).
  destruct (assign_frame _ _ _ _ _ _ _ _ _ _ H) as (I1 & I2 & _). split; [|assumption]. intros a Ha. apply I1. auto.
Qed.
Theorem setitem_unknown : forall st args i ndim v method shapefull axis st', (forall g, ~ does vadd vsub vmul vdiv vand vor method g) ->
  setitem st args i ndim v method shapefull axis = Ok st' -> st' = st.
Proof.
  intros st args i ndim v method shapefull axis st' Hd H. apply setitem_loop in H. destruct H as (ops & sel & n & ax & pairs & H & Hin).
  destruct (assign_frame _ _ _ _ _ _ _ _ _ _ H) as (_ & _ & I3). apply I3. destruct (method_op _ _ _ _ _ _ method) as [g|] eqn:E; [|reflexivity].
  exfalso. destruct (op_does _ _ _ _ _ _ _ _ E) as (h & Hh). exact (Hd h Hh).
Qed.
End Any.
