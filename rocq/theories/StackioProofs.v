From Verif Require Import BaseProofs StackioSpec NumpyProofs IndexingProofs SetitemProofs SetitemMain.
Local Open Scope nat_scope.

Lemma shape_eqb_eq s : forall t, shape_eqb s t = true <-> s = t.
Proof.
  intros t. split; [apply IndexingProofs.shape_eqb_eq|]. intros <-. induction s as [|n s IH]; [reflexivity|]. cbn. now rewrite Nat.eqb_refl.
Qed.
Lemma at_insert d i y x : d < 3 -> insert_at d i [y; x] = at_image d i y x.
Proof. destruct d as [|[|[|d]]]; intros; try lia; reflexivity. Qed.
Lemma at_remove d i y x : d < 3 -> remove_at d (at_image d i y x) = [y; x].
Proof. destruct d as [|[|[|d]]]; intros; try lia; reflexivity. Qed.
Lemma at_nth d i y x : d < 3 -> nth d (at_image d i y x) 0 = i.
Proof. destruct d as [|[|[|d]]]; intros; try lia; reflexivity. Qed.
Lemma at_length d i y x : length (at_image d i y x) = 3.
Proof. destruct d as [|[|d]]; reflexivity. Qed.
Lemma at_shape d s : d < 3 -> length s = 3 -> exists n h w, s = at_image d n h w.
Proof.
  intros Hd H. destruct s as [|a [|b [|c [|? ?]]]]; try discriminate.
  destruct d as [|[|[|d]]]; try lia; cbn; eauto.
Qed.
Lemma Forall2_cons_iff3 a b c i j k : inside [a; b; c] [i; j; k] -> i < a /\ j < b /\ k < c.
Proof. intros H. inversion H as [|? ? ? ? H1 G]; subst. inversion G as [|? ? ? ? H2 G']; subst. inversion G' as [|? ? ? ? H3 _]; subst. auto. Qed.
Lemma at_inside d n h w o : d < 3 -> inside (at_image d n h w) o -> exists i y x, o = at_image d i y x /\ i < n /\ y < h /\ x < w.
Proof.
  intros Hd H. assert (length o = 3) as L by (apply inside_length in H; now rewrite H, at_length).
  destruct o as [|a [|b [|c [|? ?]]]]; try discriminate.
  destruct d as [|[|[|d]]]; try lia; cbn in H; apply Forall2_cons_iff3 in H; destruct H as (H1 & H2 & H3); cbn; eauto 8.
Qed.
Lemma at_is_inside d n h w i y x : i < n -> y < h -> x < w -> inside (at_image d n h w) (at_image d i y x).
Proof. intros. destruct d as [|[|d]]; cbn; repeat (constructor; try assumption). Qed.
Lemma at_inj d i y x i' y' x' : at_image d i y x = at_image d i' y' x' -> i = i' /\ y = y' /\ x = x'.
Proof. destruct d as [|[|d]]; cbn; intros [= -> -> ->]; auto. Qed.

Section Io.
Context {V : Type} (cast : V -> V) (refill : arr V -> list nat -> list nat -> V).

Lemma check_asked stackdim d : asked stackdim d -> check_dim stackdim = Ok (Z.of_nat d).
Proof.
  intros (Hd & [-> | (-> & ->)]); [|reflexivity]. unfold check_dim.
  destruct (Z.ltb_spec (Z.of_nat d) 0); [lia|]. destruct (Z.ltb_spec 2 (Z.of_nat d)); [lia|]. reflexivity.
Qed.
Lemma check_other z : (z < 0 \/ 2 < z)%Z -> check_dim (Some z) = Err ValueError.
Proof. intros H. unfold check_dim. destruct (Z.ltb_spec z 0); [reflexivity|]. destruct (Z.ltb_spec 2 z); [reflexivity|lia]. Qed.

Lemma dim_cases d (A : Type) (a b c : A) : d < 3 ->
  (if (Z.of_nat d =? 0)%Z then a else if (Z.of_nat d =? 1)%Z then b else c) = match d with 0 => a | 1 => b | _ => c end.
Proof. destruct d as [|[|[|d]]]; intros; try lia; reflexivity. Qed.
Lemma write_index d i : d < 3 -> ListToolsModel.move [Sl slice_all; Sl slice_all; Num i] 2 (Z.of_nat d) = Ok (set_nth (repeat full 3) d (Num i)).
Proof. destruct d as [|[|[|d]]]; intros; try lia; reflexivity. Qed.
Lemma read_index d i : d < 3 ->
  np_expand (match d with 0 => [Num i; Ell] | 1 => [Sl slice_all; Num i; Sl slice_all] | _ => [Ell; Num i] end) 3 = Ok (set_nth (repeat full 3) d (Num i)).
Proof. destruct d as [|[|[|d]]]; intros; try lia; reflexivity. Qed.

Lemma part_image d n h w i : d < 3 -> i < n -> exists rs,
  resolve_all (at_image d n h w) (set_nth (repeat full 3) d (Num (Z.of_nat i))) = Ok rs /\ has_adv rs = false /\ kept_lens rs = [h; w] /\
  forall y x, y < h -> x < w -> fill rs [y; x] 0 = at_image d i y x.
Proof.
  intros Hd Hi. destruct (part_resolve (at_image d n h w) d i) as (rs & H1 & H2 & H3 & H4).
  - now rewrite at_length.
  - now rewrite at_nth.
  - rewrite at_length in H1. rewrite at_remove in H3, H4 by assumption. exists rs. split; [exact H1|]. split; [exact H2|]. split; [exact H3|].
    intros y x Hy Hx. rewrite H4 by (constructor; [exact Hy|constructor; [exact Hx|constructor]]). now apply at_insert.
Qed.

Definition shows (img a : arr V) d i h w : Prop :=
  shp img = [h; w] /\ forall y x, y < h -> x < w -> elt img [y; x] = elt a (at_image d i y x).

Lemma read_ok s j a d n h w i : d < 3 -> dim s = Z.of_nat d -> nth_error (sets s) j = Some a -> shp a = at_image d n h w -> i < n ->
  exists img, readimg s j (Z.of_nat i) = Ok img /\ shows img a d i h w.
Proof.
  intros Hd Ed Ej Ea Hi. unfold readimg, dataset. rewrite Ej. cbn [bind]. rewrite Ed, dim_cases by assumption. unfold np_getitem. cbn [tuple_of].
  rewrite Ea, at_length, read_index by assumption. cbn [bind]. destruct (part_image d n h w i Hd Hi) as (rs & H1 & H2 & H3 & H4).
  unfold np_get. rewrite Ea, H1. cbn [bind]. unfold out_shape. rewrite H2. cbn [bind shp]. rewrite H3. cbn [length Nat.eqb].
  eexists. split; [reflexivity|]. split; [reflexivity|]. intros y x Hy Hx. cbn [elt]. unfold out_elt. now rewrite H2, H4.
Qed.
Lemma norm_out n z : (z < - Z.of_nat n \/ Z.of_nat n <= z)%Z -> norm n z = Err IndexError.
Proof. intros H. unfold norm. apply py_pos_None in H. now rewrite H. Qed.
Lemma slice_resolve n : resolve n full = Ok (RSl (seq 0 n)).
Proof. cbn [resolve full]. now rewrite SetitemMain.slice_all_positions. Qed.
Lemma part_out d n h w z : d < 3 -> (z < - Z.of_nat n \/ Z.of_nat n <= z)%Z ->
  resolve_all (at_image d n h w) (set_nth (repeat full 3) d (Num z)) = Err IndexError.
Proof.
  intros Hd Hz. apply norm_out in Hz. destruct d as [|[|[|d]]]; try lia; cbn [at_image repeat set_nth].
  - cbn [resolve_all resolve]. rewrite Hz. reflexivity.
  - change (resolve_all [h; n; w] [full; Num z; full]) with (let! r := resolve h full in let! rs := resolve_all [n; w] [Num z; full] in Ok (r :: rs)).
    rewrite slice_resolve. cbn [resolve_all resolve bind]. rewrite Hz. reflexivity.
  - change (resolve_all [h; w; n] [full; full; Num z]) with (let! r := resolve h full in let! rs := (let! r := resolve w full in let! rs := resolve_all [n] [Num z] in Ok (r :: rs)) in Ok (r :: rs)).
    rewrite !slice_resolve. cbn [resolve_all resolve bind]. rewrite Hz. reflexivity.
Qed.
Lemma read_out s j (a : arr V) d n h w z : d < 3 -> dim s = Z.of_nat d -> nth_error (sets s) j = Some a -> shp a = at_image d n h w ->
  (z < - Z.of_nat n \/ Z.of_nat n <= z)%Z -> readimg s j z = Err IndexError.
Proof.
  intros Hd Ed Ej Ea Hz. unfold readimg, dataset. rewrite Ej. cbn [bind]. rewrite Ed, dim_cases by assumption. unfold np_getitem. cbn [tuple_of].
  rewrite Ea, at_length, read_index by assumption. cbn [bind]. unfold np_get. rewrite Ea, part_out by assumption. reflexivity.
Qed.

Lemma write_ok t j dt (a : arr V) d n h w i img : d < 3 -> odim t = Z.of_nat d -> nth_error (outs t) j = Some (dt, a) -> shp a = at_image d n h w -> i < n ->
  shp img = [h; w] ->
  exists a', writeimg t img j (Z.of_nat i) = Ok {| outs := set_nth (outs t) j (dt, a'); odim := odim t; overwrite := overwrite t |} /\
    shp a' = shp a /\ forall k y x, y < h -> x < w -> elt a' (at_image d k y x) = if Nat.eqb k i then elt img [y; x] else elt a (at_image d k y x).
Proof.
  intros Hd Ed Ej Ea Hi Eimg. unfold writeimg. rewrite Ed, write_index by assumption. cbn [bind]. unfold dataset. rewrite Ej. cbn [bind].
  unfold np_putitem. cbn [tuple_of]. rewrite Ea, at_length, expand_fulls by assumption. cbn [bind].
  destruct (part_image d n h w i Hd Hi) as (rs & H1 & H2 & H3 & H4). unfold np_put. rewrite Ea, H1. cbn [bind]. unfold out_shape. rewrite H2. cbn [bind].
  rewrite H3. destruct (broadcast_same img) as (vb & B1 & B2). rewrite Eimg in B1, B2. rewrite B1. cbn [bind]. eexists. split; [reflexivity|]. split; [reflexivity|]. intros k y x Hy Hx. cbn [elt].
  assert (forall y x, source rs [y; x] = fill rs [y; x] 0) as Sr by (intros; unfold source, out_elt; now rewrite H2).
  destruct (Nat.eqb_spec k i) as [->|N].
  - rewrite (last_from_max rs [h; w] (at_image d i y x) [y; x]).
    + apply B2. repeat (constructor; try assumption).
    + repeat (constructor; try assumption).
    + now rewrite Sr, H4.
    + intros o' Ho' E. assert (exists y' x', o' = [y'; x'] /\ y' < h /\ x' < w) as (y' & x' & -> & Hy' & Hx').
      { inversion Ho' as [|? y' ? o2 Q1 Q2]; subst. inversion Q2 as [|? x' ? o3 Q3 Q4]; subst. inversion Q4; subst. eauto. }
      rewrite Sr, H4 in E by assumption. apply at_inj in E. destruct E as (_ & -> & ->). now left.
  - rewrite last_from_none; [reflexivity|]. intros o Ho E.
    assert (exists y' x', o = [y'; x'] /\ y' < h /\ x' < w) as (y' & x' & -> & Hy' & Hx').
    { inversion Ho as [|? y' ? o2 Q1 Q2]; subst. inversion Q2 as [|? x' ? o3 Q3 Q4]; subst. inversion Q4; subst. eauto. }
    rewrite Sr, H4 in E by assumption. apply at_inj in E. destruct E as (E & _). now apply N.
Qed.
Lemma write_out t j dt (a : arr V) d n h w z img : d < 3 -> odim t = Z.of_nat d -> nth_error (outs t) j = Some (dt, a) -> shp a = at_image d n h w ->
  (z < - Z.of_nat n \/ Z.of_nat n <= z)%Z -> writeimg t img j z = Err IndexError.
Proof.
  intros Hd Ed Ej Ea Hz. unfold writeimg. rewrite Ed, write_index by assumption. cbn [bind]. unfold dataset. rewrite Ej. cbn [bind].
  unfold np_putitem. cbn [tuple_of]. rewrite Ea, at_length, expand_fulls by assumption. cbn [bind]. unfold np_put. rewrite Ea, part_out by assumption. reflexivity.
Qed.

(* ---- preparing ---- *)
Lemma destshape_ok (t : target (V := V)) d n h w : d < 3 -> odim t = Z.of_nat d -> destshape t n [h; w] = Ok (at_image d n h w).
Proof. intros Hd E. unfold destshape. cbn [dataset nth_error bind]. rewrite E. destruct d as [|[|[|d]]]; try lia; reflexivity. Qed.
Definition ready (s : list nat) (dt : nat) (d : nat * arr V) : Prop := fst d = dt /\ shp (snd d) = s.
Lemma datasetscheck_spec t s dt : datasetscheck t s dt = true <-> Forall (ready s dt) (outs t).
Proof.
  unfold datasetscheck. rewrite forallb_forall, Forall_forall. unfold ready. split; intros H d Hd; specialize (H d Hd).
  - apply andb_true_iff in H. destruct H as [H1 H2]. apply shape_eqb_eq in H1. apply Nat.eqb_eq in H2. auto.
  - destruct H as [H1 H2]. apply andb_true_iff. split; [now apply shape_eqb_eq|now apply Nat.eqb_eq].
Qed.
Lemma resize_spec s dt l :
  match resize_all refill s dt l with
  | Ok l' => Forall (fun d => fst d = dt) l /\ Forall (ready s dt) l' /\ length l' = length l
  | Err e => e = ValueError /\ ~ Forall (fun d => fst d = dt) l
  end.
Proof.
  induction l as [|[t a] l IH]; [split; [|split]; constructor|]. cbn [resize_all]. destruct (Nat.eqb_spec t dt) as [->|N]; cbn [negb].
  - destruct (resize_all refill s dt l) as [l'|e]; cbn [bind].
    + destruct IH as (I1 & I2 & I3). split; [constructor; [reflexivity|assumption]|]. split; [constructor; [split; reflexivity|assumption]|]. cbn. now rewrite I3.
    + destruct IH as (-> & I). split; [reflexivity|]. intros H. inversion H; auto.
  - split; [reflexivity|]. intros H. inversion H; auto.
Qed.
Lemma prepare_spec t d n h w dt : d < 3 -> odim t = Z.of_nat d ->
  match prepare refill t n [h; w] dt with
  | Ok t' => odim t' = odim t /\ length (outs t') = length (outs t) /\ Forall (ready (at_image d n h w) dt) (outs t') /\
             (Forall (ready (at_image d n h w) dt) (outs t) /\ outs t' = outs t \/ overwrite t = true /\ Forall (fun o => fst o = dt) (outs t))
  | Err e => e = ValueError /\ ~ Forall (ready (at_image d n h w) dt) (outs t) /\ (overwrite t = false \/ ~ Forall (fun o => fst o = dt) (outs t))
  end.
Proof.
  intros Hd E. unfold prepare. rewrite (destshape_ok t d n h w Hd E). cbn [bind].
  pose proof (datasetscheck_spec t (at_image d n h w) dt) as C. destruct (datasetscheck t _ dt).
  - pose proof (proj1 C eq_refl). auto 6.
  - assert (~ Forall (ready (at_image d n h w) dt) (outs t)) as Nr by (intros H; apply C in H; discriminate).
    destruct (overwrite t) eqn:O; [|auto]. pose proof (resize_spec (at_image d n h w) dt (outs t)) as R.
    destruct (resize_all refill (at_image d n h w) dt (outs t)) as [l|e]; cbn [bind outs odim].
    + destruct R as (R1 & R2 & R3). auto 8.
    + destruct R as (-> & R). auto.
Qed.

(* ---- copying ---- *)
Section Copy.
Variables (s : stack (V := V)) (d n h w dt : nat).
Hypothesis Hd : d < 3.
Hypothesis Hs : dim s = Z.of_nat d.
Hypothesis Ha : Forall (fun a => shp a = at_image d n h w) (sets s).
(* what has been copied: image k of stack j when P k j *)
Definition copied (P : nat -> nat -> Prop) (t : target (V := V)) : Prop :=
  odim t = Z.of_nat d /\ Forall (ready (at_image d n h w) dt) (outs t) /\ length (outs t) = length (sets s) /\
  forall j a k y x, nth_error (sets s) j = Some a -> P k j -> k < n -> y < h -> x < w ->
    exists o, nth_error (outs t) j = Some o /\ elt (snd o) (at_image d k y x) = cast (elt a (at_image d k y x)).
Lemma copied_weaken (P Q : nat -> nat -> Prop) t : (forall k j, Q k j -> P k j) -> copied P t -> copied Q t.
Proof. intros H (C1 & C2 & C3 & C4). split; [exact C1|]. split; [exact C2|]. split; [exact C3|]. intros. eapply C4; eauto. Qed.
Lemma copy_one (P : nat -> nat -> Prop) t i j : copied P t -> i < n -> j < length (sets s) ->
  exists t', copyimg cast s t j (Z.of_nat i) = Ok t' /\ copied (fun k j' => P k j' \/ k = i /\ j' = j) t'.
Proof.
  intros (C1 & C2 & C3 & C4) Hi Hj.
  destruct (nth_error (sets s) j) as [a|] eqn:Ej; [|apply nth_error_None in Ej; lia].
  assert (shp a = at_image d n h w) as Ea by (rewrite Forall_forall in Ha; eapply Ha, nth_error_In; eassumption).
  destruct (read_ok s j a d n h w i Hd Hs Ej Ea Hi) as (img & R1 & R2 & R3). unfold copyimg, readimgas. rewrite R1. cbn [bind].
  destruct (nth_error (outs t) j) as [[dt' o]|] eqn:Eo; [|apply nth_error_None in Eo; lia].
  assert (dt' = dt /\ shp o = at_image d n h w) as (-> & Eso).
  { rewrite Forall_forall in C2. apply nth_error_In in Eo. apply C2 in Eo. exact Eo. }
  set (img' := {| shp := shp img; elt := fun o0 => cast (elt img o0) |}).
  destruct (write_ok t j dt o d n h w i img' Hd C1 Eo Eso Hi R2) as (o' & W1 & W2 & W3).
  rewrite W1. eexists. split; [reflexivity|]. cbn [outs odim]. split; [exact C1|]. split; [|split].
  - cbn [outs]. rewrite Forall_forall in C2 |- *. intros x Hx. apply In_nth_error in Hx. destruct Hx as (k & Hk). rewrite nth_error_set_nth in Hk.
    destruct (Nat.eqb k j); [|apply C2; eapply nth_error_In; eassumption].
    destruct (Nat.ltb j (length (outs t))); [|discriminate]. injection Hk as <-. split; [reflexivity|]. cbn. now rewrite W2.
  - cbn [outs]. now rewrite set_nth_length.
  - cbn [outs]. intros j' a' k y x Ej' HP Hk Hy Hx. rewrite nth_error_set_nth. destruct (Nat.eqb_spec j' j) as [->|Nj].
    + assert (j <? length (outs t) = true) as -> by (apply Nat.ltb_lt; lia). eexists. split; [reflexivity|]. cbn [snd]. rewrite W3 by assumption.
      rewrite Ej in Ej'. injection Ej' as <-. destruct (Nat.eqb_spec k i) as [->|Nk].
      * cbn [img' elt]. now rewrite R3.
      * destruct HP as [HP|[-> _]]; [|congruence]. destruct (C4 j a k y x Ej HP Hk Hy Hx) as (o2 & O1 & O2). rewrite Eo in O1. injection O1 as <-. exact O2.
    + destruct HP as [HP|[_ ->]]; [|congruence]. eapply C4; eassumption.
Qed.
Lemma copy_sets_ok i js : i < n -> Forall (fun j => j < length (sets s)) js -> forall P t, copied P t ->
  exists t', copy_sets cast s (Z.of_nat i) js t = Ok t' /\ copied (fun k j => P k j \/ k = i /\ In j js) t'.
Proof.
  intros Hi. induction 1 as [|j js Hj Hjs IH]; intros P t C.
  - exists t. split; [reflexivity|]. eapply copied_weaken; [|exact C]. intros k j [H|[_ []]]. exact H.
  - cbn [copy_sets]. destruct (copy_one P t i j C Hi Hj) as (t1 & E1 & C1). rewrite E1. cbn [bind]. destruct (IH _ t1 C1) as (t2 & E2 & C2).
    exists t2. split; [exact E2|]. eapply copied_weaken; [|exact C2]. cbn. intros k j' [H|[-> [<-|H]]]; auto.
Qed.
Lemma copy_images_ok is : Forall (fun i => i < n) is -> forall P t, copied P t ->
  exists t', copy_images cast s is t = Ok t' /\ copied (fun k j => P k j \/ In k is) t'.
Proof.
  induction 1 as [|i is Hi His IH]; intros P t C.
  - exists t. split; [reflexivity|]. eapply copied_weaken; [|exact C]. intros k j [H|[]]. exact H.
  - cbn [copy_images]. destruct (copy_sets_ok i (seq 0 (length (sets s))) Hi) with (P := P) (t := t) as (t1 & E1 & C1); [|exact C|].
    { apply Forall_forall. intros j Hj. apply in_seq in Hj. lia. }
    rewrite E1. cbn [bind]. destruct (IH _ t1 C1) as (t2 & E2 & C2). exists t2. split; [exact E2|].
    destruct C2 as (D1 & D2 & D3 & D4). split; [exact D1|]. split; [exact D2|]. split; [exact D3|]. intros j a k y x Ej HP. apply D4; [exact Ej|].
    destruct HP as [HP|[<-|HP]]; auto. left. right. split; [reflexivity|]. apply in_seq. assert (nth_error (sets s) j <> None) as Hn by congruence. apply nth_error_Some in Hn. lia.
Qed.
End Copy.

Lemma source_ok checked (src : list (arr V)) stackdim d n h w : asked stackdim d -> src <> [] -> Forall (fun a => shp a = at_image d n h w) src ->
  source_init checked src stackdim = Ok {| sets := src; dim := Z.of_nat d; nimages := n; imgsize := [h; w] |}.
Proof.
  intros A Hsrc F. unfold source_init. rewrite (check_asked _ _ A). cbn [bind]. destruct src as [|a src]; [congruence|]. destruct A as (Hd & _).
  inversion F as [|? ? Ea F']; subst.
  replace (forallb (fun b => shape_eqb (shp b) (shp a)) (a :: src)) with true.
  2:{ symmetry. apply forallb_forall. intros b Hb. apply shape_eqb_eq. rewrite Ea. rewrite Forall_forall in F. now apply F. }
  cbn [negb]. rewrite andb_false_r. unfold initshape. rewrite Ea, at_length. cbn [Nat.ltb Nat.leb bind]. now rewrite Nat2Z.id, at_nth, at_remove.
Qed.
Lemma asked_again d : d < 3 -> check_dim (Some (Z.of_nat d)) = Ok (Z.of_nat d).
Proof. intros H. apply check_asked. split; auto. Qed.

Lemma source_spec checked (src : list (arr V)) stackdim :
  match source_init checked src stackdim with
  | Ok s => sets s = src /\ exists a rest, src = a :: rest /\ length (shp a) <= 3 /\ (checked = true -> Forall (fun b => shp b = shp a) src) /\
            (forall z, stackdim = Some z -> 0 <= z <= 2)%Z
  | Err e => (e = IndexError /\ src = [] \/ e = ValueError /\ (exists z, stackdim = Some z /\ (z < 0 \/ 2 < z)%Z) \/
              e = ValueError /\ exists a rest, src = a :: rest /\ (3 < length (shp a) \/ checked = true /\ ~ Forall (fun b => shp b = shp a) src))
  end.
Proof.
  unfold source_init. destruct (check_dim stackdim) as [d|e] eqn:C; cbn [bind].
  2:{ right. left. destruct stackdim as [z|]; [|discriminate]. unfold check_dim in C. destruct ((z <? 0) || (2 <? z))%Z eqn:B; [|discriminate].
      injection C as <-. split; [reflexivity|]. exists z. split; [reflexivity|]. apply orb_true_iff in B. destruct B as [B|B]; apply Z.ltb_lt in B; auto. }
  assert (forall z, stackdim = Some z -> 0 <= z <= 2)%Z as Hz.
  { intros z ->. unfold check_dim in C. destruct ((z <? 0) || (2 <? z))%Z eqn:B; [discriminate|]. apply orb_false_iff in B. destruct B as [B1 B2]. apply Z.ltb_ge in B1, B2. lia. }
  destruct src as [|a rest]; [auto|].
  assert (forallb (fun b => shape_eqb (shp b) (shp a)) (a :: rest) = true <-> Forall (fun b => shp b = shp a) (a :: rest)) as F.
  { rewrite forallb_forall, Forall_forall. split; intros H b Hb; specialize (H b Hb); now apply shape_eqb_eq. }
  destruct checked.
  - destruct (forallb _ (a :: rest)); cbn [andb negb].
    + unfold initshape. destruct (Nat.ltb_spec 3 (length (shp a))); cbn [bind].
      * right. right. split; [reflexivity|]. eauto.
      * pose proof (proj1 F eq_refl). destruct (length (shp a) <? 3); cbn [bind sets]; (split; [reflexivity|]); exists a, rest; auto.
    + right. right. split; [reflexivity|]. exists a, rest. split; [reflexivity|]. right. split; [reflexivity|]. intros H. apply F in H. discriminate.
  - cbn [andb]. unfold initshape. destruct (Nat.ltb_spec 3 (length (shp a))); cbn [bind].
    + right. right. split; [reflexivity|]. eauto.
    + destruct (length (shp a) <? 3); cbn [bind sets]; (split; [reflexivity|]); exists a, rest; (split; [reflexivity|]); (split; [assumption|]); (split; [discriminate|exact Hz]).
Qed.

Lemma align_copy_ok checked src stackdim d n h w dst ov dt : asked stackdim d -> src <> [] ->
  Forall (fun a => shp a = at_image d n h w) src -> length dst = length src ->
  Forall (fun o => fst o = dt) dst -> ov = true \/ Forall (fun o => shp (snd o) = at_image d n h w) dst ->
  exists l, align_copy cast refill checked src stackdim dst ov dt = Ok l /\
    Forall2 (fun a b => shp b = shp a /\ forall o, inside (shp a) o -> elt b o = cast (elt a o)) src l.
Proof.
  intros A Hsrc Fs Hlen Ft Hov. pose proof (proj1 A) as Hd. unfold align_copy. rewrite (source_ok checked src stackdim d n h w A Hsrc Fs). cbn [bind dim].
  unfold target_init. rewrite (asked_again d Hd). cbn [bind]. destruct dst as [|o0 dst0] eqn:Edst; [destruct src; [congruence|discriminate]|]. rewrite <- Edst in *. clear o0 dst0 Edst.
  cbn [bind]. unfold copy_all. cbn [nimages imgsize].
  pose proof (prepare_spec {| outs := dst; odim := Z.of_nat d; overwrite := ov |} d n h w dt Hd eq_refl) as P.
  destruct (prepare refill _ n [h; w] dt) as [t|e]; cbn [bind odim outs overwrite] in *.
  2:{ exfalso. destruct P as (_ & P1 & P2). destruct Hov as [-> |Hov].
      - destruct P2 as [P2|P2]; [discriminate|]. now apply P2.
      - apply P1. rewrite Forall_forall in Ft, Hov |- *. intros o Ho. split; [now apply Ft|now apply Hov]. }
  destruct P as (P1 & P2 & P3 & _). set (s := {| sets := src; dim := Z.of_nat d; nimages := n; imgsize := [h; w] |}).
  destruct (copy_images_ok s d n h w dt Hd eq_refl Fs (seq 0 n)) with (P := fun _ _ : nat => False) (t := t) as (t' & E & C).
  - apply Forall_forall. intros i Hi. apply in_seq in Hi. lia.
  - split; [exact P1|]. split; [exact P3|]. split; [cbn; congruence|]. intros j a k y x _ [].
  - rewrite E. cbn [bind]. eexists. split; [reflexivity|]. destruct C as (_ & C2 & C3 & C4). cbn [sets s] in C3, C4.
    assert (forall j a, nth_error src j = Some a -> exists b, nth_error (map snd (outs t')) j = Some b /\ shp b = shp a /\ forall o, inside (shp a) o -> elt b o = cast (elt a o)) as K.
    { intros j a Ej. destruct (nth_error (outs t') j) as [[dt' b]|] eqn:Eb.
      2:{ apply nth_error_None in Eb. assert (nth_error src j <> None) as Hn by congruence. apply nth_error_Some in Hn. lia. }
      exists b. split; [rewrite nth_error_map, Eb; reflexivity|]. rewrite Forall_forall in Fs, C2.
      assert (shp a = at_image d n h w) as Ea by (eapply Fs, nth_error_In; eassumption).
      pose proof (C2 _ (nth_error_In _ _ Eb)) as (_ & Eb2). cbn in Eb2. split; [congruence|]. intros o Ho. rewrite Ea in Ho.
      destruct (at_inside d n h w o Hd Ho) as (i & y & x & -> & Hi & Hy & Hx).
      destruct (C4 j a i y x Ej) as (o2 & O1 & O2); auto. { right. apply in_seq. lia. }
      rewrite Eb in O1. injection O1 as <-. exact O2. }
    assert (length (map snd (outs t')) = length src) as L by (rewrite map_length; exact C3). clear -K L. revert L K. generalize (map snd (outs t')). clear.
    induction src as [|a src IH]; intros l L K; destruct l as [|b l]; try discriminate; [constructor|].
    destruct (K 0 a eq_refl) as (b' & E & H). cbn in E. injection E as <-. constructor; [exact H|]. apply IH; [now injection L|]. intros j a' E. exact (K (S j) a' E).
Qed.
End Io.
