From Verif Require Export UnitsSpec BaseProofs.
Local Open Scope Qc_scope.

Lemma dim_eqb_spec : forall a b, dim_eqb a b = true <-> a = b.
Proof.
  induction a as [|x a IH]; destruct b as [|y b]; cbn; split; intro H; try congruence; try discriminate; try reflexivity.
  - apply andb_true_iff in H. destruct H as [Hx Ha]. apply Z.eqb_eq in Hx. apply IH in Ha. congruence.
  - inversion H; subst. rewrite Z.eqb_refl. cbn. apply IH. reflexivity.
Qed.
Lemma dim_eqb_false : forall a b, dim_eqb a b = false <-> a <> b.
Proof.
  intros a b. split; intro H.
  - intro E. apply dim_eqb_spec in E. congruence.
  - destruct (dim_eqb a b) eqn:E; [apply dim_eqb_spec in E; contradiction | reflexivity].
Qed.
Lemma unit_eqb_spec : forall a b, unit_eqb a b = true <-> a = b.
Proof.
  intros [d s] [d' s']. unfold unit_eqb. cbn [u_dim u_size]. rewrite andb_true_iff, dim_eqb_spec. split.
  - intros [-> H]. apply Qc_eqb_spec in H. subst. reflexivity.
  - intro H. inversion H; subst. split; [reflexivity|]. apply Qc_eqb_spec. reflexivity.
Qed.

Lemma unit_eqb_refl : forall u, unit_eqb u u = true.
Proof. intro u. apply unit_eqb_spec. reflexivity. Qed.
Lemma dim_eqb_refl : forall d, dim_eqb d d = true.
Proof. intro u. apply dim_eqb_spec. reflexivity. Qed.

Lemma scaled (a x b : Qc) : a <> 0 -> x * b / a * a = x * b.
Proof. intro H. field. exact H. Qed.
Lemma unscaled (a y : Qc) : a <> 0 -> y * a / a = y.
Proof. intro H. field. exact H. Qed.

Lemma magnitude1_ok u s y : sized u -> (magnitude1 u s = Ok y <-> fits u s /\ physical s = (u_dim u, y * u_size u)).
Proof.
  intro Hu. unfold sized in Hu. destruct s as [x|v x]; cbn [magnitude1 fits physical].
  - destruct (unit_eqb u dimensionless) eqn:E.
    + apply unit_eqb_spec in E. subst u. cbn [u_dim u_size dimensionless]. rewrite Qcmult_1_r. split.
      * intro H. assert (x = y) as -> by congruence. split; reflexivity.
      * intros [_ H]. congruence.
    + split; [discriminate|]. intros [H _]. apply unit_eqb_spec in H. congruence.
  - unfold convert. destruct (dim_eqb (u_dim v) (u_dim u)) eqn:E.
    + apply dim_eqb_spec in E. rewrite E. split.
      * intro H. assert (x * u_size v / u_size u = y) as <- by congruence. split; [reflexivity|]. rewrite scaled by exact Hu. reflexivity.
      * intros [_ H]. assert (x * u_size v = y * u_size u) as -> by congruence. rewrite unscaled by exact Hu. reflexivity.
    + apply dim_eqb_false in E. split; [discriminate|]. intros [H _]. contradiction.
Qed.
Lemma magnitude1_err u s : ~ fits u s -> magnitude1 u s = Err TypeError.
Proof.
  destruct s as [x|v x]; cbn [magnitude1 fits]; intro H.
  - destruct (unit_eqb u dimensionless) eqn:E; [apply unit_eqb_spec in E; contradiction | reflexivity].
  - unfold convert. apply dim_eqb_false in H. rewrite H. reflexivity.
Qed.
Lemma fits_dec u s : {fits u s} + {~ fits u s}.
Proof.
  destruct s as [x|v x]; cbn [fits].
  - destruct (unit_eqb u dimensionless) eqn:E; [left; apply unit_eqb_spec, E | right; intro H; apply unit_eqb_spec in H; congruence].
  - destruct (dim_eqb (u_dim v) (u_dim u)) eqn:E; [left; apply dim_eqb_spec, E | right; apply dim_eqb_false, E].
Qed.
Lemma magnitude1_fits u s : fits u s -> exists y, magnitude1 u s = Ok y.
Proof.
  destruct s as [x|v x]; cbn [magnitude1 fits]; intro H.
  - subst u. rewrite unit_eqb_refl. eexists; reflexivity.
  - unfold convert. apply dim_eqb_spec in H. rewrite H. eexists; reflexivity.
Qed.

Lemma magnitudes_ok u l m : sized u -> (mapM (magnitude1 u) l = Ok m <-> Forall (fits u) l /\ map physical l = in_unit u m).
Proof.
  intro Hu. revert m. induction l as [|s l IH]; intro m; cbn [mapM map].
  - split; [intro H; inversion H; subst; split; [constructor | reflexivity] |].
    intros [_ H]. destruct m; [reflexivity | discriminate].
  - destruct (magnitude1 u s) as [y|e] eqn:E; cbn [bind].
    + pose proof (proj1 (magnitude1_ok u s y Hu) E) as [F P].
      destruct (mapM (magnitude1 u) l) as [r|e] eqn:R; cbn [bind].
      * destruct (proj1 (IH r) eq_refl) as [Fl Pl]. split.
        -- intro H. assert (y :: r = m) as <- by congruence. split; [constructor; assumption|]. cbn [in_unit map]. rewrite P. unfold in_unit in Pl. rewrite Pl. reflexivity.
        -- intros [_ H]. destruct m as [|z m]; [discriminate|]. cbn [in_unit map] in H.
           assert (map physical l = in_unit u m) as Hm by (unfold in_unit; congruence).
           assert (physical s = (u_dim u, z * u_size u)) as Hs by congruence.
           assert (mapM (magnitude1 u) l = Ok m) as Em by (rewrite R; apply (proj2 (IH m)); split; assumption).
           pose proof (proj2 (magnitude1_ok u s z Hu) (conj F Hs)) as Ez. congruence.
      * split; [discriminate|]. intros [H Hp]. destruct m as [|z m]; [discriminate|]. cbn [in_unit map] in Hp.
        assert (map physical l = in_unit u m) as Hm by (unfold in_unit; congruence).
        exfalso. assert (Forall (fits u) l) as Fl by (inversion H; assumption).
        pose proof (proj2 (IH m) (conj Fl Hm)). congruence.
    + split; [discriminate|]. intros [H _]. exfalso. assert (fits u s) as Fs by (inversion H; assumption).
      destruct (magnitude1_fits u s Fs) as [y Y]. congruence.
Qed.
Lemma magnitudes_err u l : ~ Forall (fits u) l -> mapM (magnitude1 u) l = Err TypeError.
Proof.
  induction l as [|s l IH]; intro H; [exfalso; apply H; constructor|]. cbn [mapM].
  destruct (fits_dec u s) as [F|F].
  - destruct (magnitude1_fits u s F) as [y ->]. cbn [bind]. rewrite IH; [reflexivity|].
    intro Fl. apply H. constructor; assumption.
  - rewrite magnitude1_err by exact F. reflexivity.
Qed.
Lemma magnitudes_fits u l : Forall (fits u) l -> exists m, mapM (magnitude1 u) l = Ok m.
Proof.
  induction 1 as [|s l F _ [m IH]]; [exists []; reflexivity|]. cbn [mapM].
  destruct (magnitude1_fits u s F) as [y ->]. cbn [bind]. rewrite IH. eexists; reflexivity.
Qed.

Lemma in_unit_length u l : List.length (in_unit u l) = List.length l.
Proof. apply map_length. Qed.

(* ---- magnitude ---- *)
Lemma magnitude_scalar u s y : sized u ->
  (magnitude (Some u) (One s) = Ok (M1 y) <-> fits u s /\ physical s = (u_dim u, y * u_size u)).
Proof.
  intro Hu. rewrite <- magnitude1_ok by exact Hu. cbn [magnitude]. destruct (magnitude1 u s) as [z|e]; cbn [bind]; split; intro H; congruence.
Qed.
Lemma magnitude_array u l m : sized u ->
  (magnitude (Some u) (Many l) = Ok (MArray m) <-> Forall (fits u) l /\ map physical l = in_unit u m).
Proof.
  intro Hu. rewrite <- magnitudes_ok by exact Hu. cbn [magnitude]. destruct (mapM (magnitude1 u) l) as [z|e]; cbn [bind]; split; intro H; congruence.
Qed.
Lemma magnitude_qarray u v l m : sized u ->
  (magnitude (Some u) (QArray v l) = Ok (MArray m) <-> u_dim v = u_dim u /\ in_unit v l = in_unit u m).
Proof.
  intro Hu. cbn [magnitude]. unfold convert_all. destruct (dim_eqb (u_dim v) (u_dim u)) eqn:E; cbn [bind].
  - apply dim_eqb_spec in E. unfold in_unit. rewrite E. split.
    + intro H. assert (map (fun x => x * u_size v / u_size u) l = m) as <- by congruence. split; [reflexivity|].
      rewrite map_map. apply map_ext. intro x. rewrite scaled by exact Hu. reflexivity.
    + intros [_ H]. do 2 f_equal. revert m H. induction l as [|x l IH]; intros [|z m] H; cbn [map] in *; try discriminate; [reflexivity|].
      assert (x * u_size v = z * u_size u) as -> by congruence. rewrite unscaled by exact Hu. f_equal. apply IH. congruence.
  - apply dim_eqb_false in E. split; [discriminate|]. intros [H _]. contradiction.
Qed.
Lemma magnitude_error u x :
  match x with One s => ~ fits u s | Many l => ~ Forall (fits u) l | QArray v _ => u_dim v <> u_dim u end ->
  magnitude (Some u) x = Err TypeError.
Proof.
  destruct x as [s|l|v l]; cbn [magnitude]; intro H.
  - rewrite magnitude1_err by exact H. reflexivity.
  - rewrite magnitudes_err by exact H. reflexivity.
  - unfold convert_all. apply dim_eqb_false in H. rewrite H. reflexivity.
Qed.

(* ---- asqarray ---- *)
Lemma asarray_cons (u : unit_t) (s : scalar) l m : mapM (magnitude1 u) (s :: l) = Ok m -> asarray m = Ok m.
Proof.
  cbn [mapM]. destruct (magnitude1 u s) as [y|e]; cbn [bind]; [|discriminate].
  destruct (mapM (magnitude1 u) l) as [r|e]; cbn [bind]; [|discriminate]. intro H. assert (y :: r = m) as <- by congruence. reflexivity.
Qed.
Lemma asqarray_list f s l : asqarray f (Many (s :: l)) =
  (let! m := mapM (magnitude1 (unit_of s)) (s :: l) in
   match unit1 s, f with None, false => Ok (Many (map Num m)) | _, _ => Ok (QArray (unit_of s) m) end).
Proof.
  unfold asqarray. cbn [units]. rewrite (map_cons unit1 s l).
  assert (match unit1 s with Some u => u | None => dimensionless end = unit_of s) as -> by (destruct s; reflexivity).
  destruct (mapM (magnitude1 (unit_of s)) (s :: l)) as [m|e] eqn:E; cbn [bind]; [|reflexivity].
  rewrite (asarray_cons _ _ _ _ E). reflexivity.
Qed.
Lemma physical_numbers m : map physical (map Num m) = in_unit dimensionless m.
Proof. unfold in_unit. rewrite map_map. apply map_ext. intro y. cbn [physical dimensionless u_dim u_size]. rewrite Qcmult_1_r. reflexivity. Qed.

Lemma asqarray_ok f s l : sized (unit_of s) -> Forall (fits (unit_of s)) (s :: l) ->
  exists m, asqarray f (Many (s :: l)) = Ok (match s, f with Num _, false => Many (map Num m) | _, _ => QArray (unit_of s) m end) /\
    in_unit (unit_of s) m = meaning (Many (s :: l)).
Proof.
  intros Hs F. destruct (magnitudes_fits _ _ F) as [m M]. exists m. rewrite asqarray_list, M. cbn [bind]. split.
  - destruct s, f; reflexivity.
  - apply magnitudes_ok in M; [|exact Hs]. destruct M as [_ M]. cbn [meaning]. symmetry. exact M.
Qed.
Lemma asqarray_err f s l : ~ Forall (fits (unit_of s)) (s :: l) -> asqarray f (Many (s :: l)) = Err TypeError.
Proof. intro H. rewrite asqarray_list, magnitudes_err by exact H. reflexivity. Qed.
Lemma self_magnitude s : sized (unit_of s) -> exists y, magnitude1 (unit_of s) s = Ok y /\ s = match s with Num _ => Num y | Quant u _ => Quant u y end.
Proof.
  destruct s as [x|u x]; cbn [unit_of magnitude1]; intro H.
  - exists x. split; reflexivity.
  - unfold convert. rewrite dim_eqb_refl. exists x. rewrite unscaled by exact H. split; reflexivity.
Qed.
Lemma asqarray_one f s : sized (unit_of s) ->
  asqarray f (One s) = Ok (match s with Num x => if f then QArray dimensionless [x] else Many [Num x] | Quant u x => QArray u [x] end).
Proof.
  intro H. unfold asqarray. cbn [units]. destruct s as [x|u x]; cbn [unit_of unit1] in *.
  - cbn [magnitude1]. rewrite unit_eqb_refl. destruct f; reflexivity.
  - cbn [magnitude1]. unfold convert. rewrite dim_eqb_refl. cbn [bind]. rewrite unscaled by exact H. reflexivity.
Qed.
Lemma qarray_self v l : sized v -> mapM (fun y => magnitude1 v (Quant v y)) l = Ok l.
Proof.
  intro H. induction l as [|y l IH]; [reflexivity|]. cbn [mapM]. cbn [magnitude1] in *. unfold convert in *. rewrite dim_eqb_refl in *. cbn [bind].
  rewrite IH. cbn [bind]. rewrite unscaled by exact H. reflexivity.
Qed.
Lemma asqarray_qarray f v l : sized v -> asqarray f (QArray v l) = match l with [] => Err IndexError | _ => Ok (QArray v l) end.
Proof.
  intro H. unfold asqarray. cbn [units]. rewrite (qarray_self v l H). cbn [bind]. destruct l; reflexivity.
Qed.
Lemma asqarray_nothing f : asqarray f (Many []) = Err StopIteration.
Proof. reflexivity. Qed.
Lemma asqarray_restore s y : sized (unit_of s) -> asqarray true (One s) = Ok y -> restore (One s) y = Ok (One (match s with Num x => Quant dimensionless x | _ => s end)).
Proof.
  intros H E. rewrite asqarray_one in E by exact H. destruct s as [x|u x].
  - assert (QArray dimensionless [x] = y) as <- by congruence. reflexivity.
  - assert (QArray u [x] = y) as <- by congruence. reflexivity.
Qed.

(* ---- Quantity ---- *)
Lemma quantity_scalar u s : quantity (Some u) true (One s) = Ok (One (match s with Num x => Quant u x | _ => s end)).
Proof. destruct s; reflexivity. Qed.
Lemma quantity_default f s : quantity None f (One s) = Ok (One (match s, f with Num x, true => Quant dimensionless x | _, _ => s end)).
Proof. destruct s, f; reflexivity. Qed.
Lemma quantity_qarray u f v l : sized v -> quantity u f (QArray v l) = match l with [] => Err IndexError | _ => Ok (QArray v l) end.
Proof. intro H. unfold quantity. rewrite asqarray_qarray by exact H. destruct l, f; reflexivity. Qed.
Lemma quantity_quantities u f v x l : sized v -> Forall (fits v) l ->
  exists m, quantity u f (Many (Quant v x :: l)) = Ok (QArray v m) /\ meaning (QArray v m) = meaning (Many (Quant v x :: l)).
Proof.
  intros Hv F. destruct (asqarray_ok false (Quant v x) l) as (m & E & M); [exact Hv | constructor; [reflexivity | exact F] |].
  exists m. unfold quantity. rewrite E. cbn [bind]. split; [destruct f; reflexivity | exact M].
Qed.
Lemma quantity_mixed u f v x l : ~ Forall (fits v) l -> quantity u f (Many (Quant v x :: l)) = Err TypeError.
Proof.
  intro F. unfold quantity. rewrite asqarray_err; [reflexivity|]. intro G. apply F. inversion G; assumption.
Qed.
Lemma numbers_as l : mapM (magnitude1 dimensionless) (map Num l) = Ok l.
Proof. induction l as [|x l IH]; [reflexivity|]. cbn [map mapM]. rewrite IH. reflexivity. Qed.
Lemma values_of l : map (fun s => match s with Num y => y | Quant _ y => y end) (map Num l) = l.
Proof. rewrite map_map. apply map_id. Qed.
Lemma quantity_numbers u x l : quantity (Some u) true (Many (map Num (x :: l))) = Ok (QArray u (x :: l)).
Proof.
  unfold quantity. rewrite (map_cons Num x l), asqarray_list. cbn [unit_of unit1]. rewrite <- (map_cons Num x l), numbers_as. cbn [bind].
  rewrite values_of. reflexivity.
Qed.
Lemma quantity_number_first u x l : ~ Forall (fits dimensionless) l -> quantity (Some u) true (Many (Num x :: l)) = Err TypeError.
Proof.
  intro F. unfold quantity. rewrite asqarray_err; [reflexivity|]. intro G. apply F. inversion G; assumption.
Qed.
(* a number followed by dimensionless quantities: everything gets the given unit *)
Lemma quantity_relabelled u x l : Forall (fits dimensionless) l ->
  exists m, quantity (Some u) true (Many (Num x :: l)) = Ok (QArray u m) /\ meaning (Many (Num x :: l)) = in_unit dimensionless m.
Proof.
  intro F. destruct (asqarray_ok false (Num x) l) as (m & E & M).
  { cbn. discriminate. } { constructor; [reflexivity | exact F]. }
  exists m. unfold quantity. rewrite E. cbn [bind]. rewrite values_of. split; [reflexivity | symmetry; exact M].
Qed.

(* ---- umagnitude ---- *)
Lemma to_qarray u v l : u_dim v = u_dim u -> sized u -> exists m, to u (QArray v l) = Ok (QArray u m) /\ in_unit u m = in_unit v l.
Proof.
  intros E Hu. cbn [to]. unfold convert_all. rewrite (proj2 (dim_eqb_spec _ _) E). cbn [bind]. eexists. split; [reflexivity|].
  unfold in_unit. rewrite map_map, E. apply map_ext. intro x. rewrite scaled by exact Hu. reflexivity.
Qed.
Lemma to_qarray_err u v l : u_dim v <> u_dim u -> to u (QArray v l) = Err TypeError.
Proof. intro E. cbn [to]. unfold convert_all. rewrite (proj2 (dim_eqb_false _ _) E). reflexivity. Qed.
Lemma to_quant u v x : u_dim v = u_dim u -> sized u -> exists y, to u (One (Quant v x)) = Ok (One (Quant u y)) /\ y * u_size u = x * u_size v.
Proof.
  intros E Hu. cbn [to]. unfold convert. rewrite (proj2 (dim_eqb_spec _ _) E). cbn [bind]. eexists. split; [reflexivity|]. apply scaled. exact Hu.
Qed.
Lemma to_quant_err u v x : u_dim v <> u_dim u -> to u (One (Quant v x)) = Err TypeError.
Proof. intro E. cbn [to]. unfold convert. rewrite (proj2 (dim_eqb_false _ _) E). reflexivity. Qed.
Lemma to_self u x : sized u -> to u (One (Quant u x)) = Ok (One (Quant u x)).
Proof. intro H. cbn [to]. unfold convert. rewrite dim_eqb_refl. cbn [bind]. rewrite unscaled by exact H. reflexivity. Qed.
Lemma to_self_array u l : sized u -> to u (QArray u l) = Ok (QArray u l).
Proof.
  intro H. cbn [to]. unfold convert_all. rewrite dim_eqb_refl. cbn [bind]. do 2 f_equal. rewrite <- (map_id l) at 2. apply map_ext.
  intro x. apply unscaled. exact H.
Qed.

Lemma umagnitude_number u x : sized u -> umagnitude u (One (Num x)) = Ok (M1 x).
Proof. intro H. unfold umagnitude. rewrite quantity_scalar. cbn [bind]. rewrite to_self by exact H. reflexivity. Qed.
Lemma umagnitude_numbers u x l : sized u -> umagnitude u (Many (map Num (x :: l))) = Ok (MArray (x :: l)).
Proof. intro H. unfold umagnitude. rewrite quantity_numbers. cbn [bind]. rewrite to_self_array by exact H. reflexivity. Qed.
Lemma umagnitude_quantity u v x : sized u -> u_dim v = u_dim u -> exists y, umagnitude u (One (Quant v x)) = Ok (M1 y) /\ y * u_size u = x * u_size v.
Proof.
  intros H E. unfold umagnitude. rewrite quantity_scalar. cbn [bind]. destruct (to_quant u v x E H) as (y & -> & Y). exists y. split; [reflexivity | exact Y].
Qed.
Lemma umagnitude_error u v x : u_dim v <> u_dim u -> umagnitude u (One (Quant v x)) = Err TypeError.
Proof. intro E. unfold umagnitude. rewrite quantity_scalar. cbn [bind]. rewrite to_quant_err by exact E. reflexivity. Qed.
Lemma umagnitude_quantities u v x l : sized u -> sized v -> u_dim v = u_dim u -> Forall (fits v) l ->
  exists m, umagnitude u (Many (Quant v x :: l)) = Ok (MArray m) /\ in_unit u m = meaning (Many (Quant v x :: l)).
Proof.
  intros Hu Hv E F. unfold umagnitude. destruct (quantity_quantities (Some u) true v x l Hv F) as (m & -> & M). cbn [bind].
  destruct (to_qarray u v m E Hu) as (m' & -> & M'). exists m'. split; [reflexivity|]. rewrite M'. exact M.
Qed.

(* ---- quantity_like ---- *)
Lemma ounit_eqb_spec a b : ounit_eqb a b = true <-> a = b.
Proof.
  destruct a as [a|], b as [b|]; cbn; try (split; congruence). rewrite unit_eqb_spec. split; congruence.
Qed.
Lemma forallb_units u l : forallb (ounit_eqb u) l = true <-> Forall (eq u) l.
Proof.
  rewrite forallb_forall, Forall_forall. split; intros H a Ha; apply ounit_eqb_spec, H, Ha.
Qed.
Lemma to_has_unit u x r : to u x = Ok r -> has_unit u r.
Proof.
  destruct x as [[x|v x]|l|v l]; cbn [to]; try discriminate.
  - destruct (convert v u x); cbn [bind]; [|discriminate]. intro H. inversion H; subst. reflexivity.
  - destruct (convert_all v u l); cbn [bind]; [|discriminate]. intro H. inversion H; subst. reflexivity.
Qed.
Lemma like_units x y r : quantity_like true x y = Ok r ->
  exists u, has_unit u r /\ units y <> [] /\ (Forall (eq (Some u)) (units y) \/ (u = dimensionless /\ Forall (eq None) (units y))).
Proof.
  unfold quantity_like. destruct (units y) as [|o l] eqn:U; [discriminate|].
  destruct (forallb (ounit_eqb o) l) eqn:F; [|discriminate]. apply forallb_units in F.
  assert (Forall (eq o) (o :: l)) as F' by (constructor; [reflexivity | exact F]).
  destruct o as [u|].
  - destruct (quantity (Some u) true x) as [q|e]; cbn [bind]; [|discriminate]. intro H. exists u.
    split; [exact (to_has_unit _ _ _ H)|]. split; [discriminate | left; exact F'].
  - destruct (quantity (Some dimensionless) true x) as [q|e]; cbn [bind]; [|discriminate]. intro H. exists dimensionless.
    split; [exact (to_has_unit _ _ _ H)|]. split; [discriminate | right; split; [reflexivity | exact F']].
Qed.
Lemma like_different f x y a b : In a (units y) -> In b (units y) -> a <> b -> quantity_like f x y = Err ValueError.
Proof.
  intros Ha Hb N. unfold quantity_like. destruct (units y) as [|o l]; [contradiction|].
  destruct (forallb (ounit_eqb o) l) eqn:F; [|reflexivity]. apply forallb_units in F. rewrite Forall_forall in F.
  assert (a = o) as -> by (destruct Ha as [<-|Ha]; [reflexivity | symmetry; apply F, Ha]).
  assert (b = o) as -> by (destruct Hb as [<-|Hb]; [reflexivity | symmetry; apply F, Hb]). contradiction.
Qed.
Lemma like_empty f x : quantity_like f x (Many []) = Err ValueError.
Proof. reflexivity. Qed.
Lemma like_uniform f x y u : units y <> [] -> Forall (eq (Some u)) (units y) -> quantity_like f x y = (let! q := quantity (Some u) true x in to u q).
Proof.
  intros N F. unfold quantity_like. destruct (units y) as [|o l]; [contradiction|]. inversion F as [|o' l' E Fl]; subst.
  rewrite (proj2 (forallb_units _ _) Fl). reflexivity.
Qed.
Lemma like_number f x y u : sized u -> units y <> [] -> Forall (eq (Some u)) (units y) -> quantity_like f (One (Num x)) y = Ok (One (Quant u x)).
Proof.
  intros H N F. rewrite (like_uniform _ _ _ _ N F), quantity_scalar. cbn [bind]. apply to_self, H.
Qed.
Lemma like_quantity f v x y u : sized u -> units y <> [] -> Forall (eq (Some u)) (units y) -> u_dim v = u_dim u ->
  exists z, quantity_like f (One (Quant v x)) y = Ok (One (Quant u z)) /\ z * u_size u = x * u_size v.
Proof.
  intros H N F E. rewrite (like_uniform _ _ _ _ N F), quantity_scalar. cbn [bind]. apply to_quant; assumption.
Qed.
Lemma like_error f v x y u : units y <> [] -> Forall (eq (Some u)) (units y) -> u_dim v <> u_dim u ->
  quantity_like f (One (Quant v x)) y = Err TypeError.
Proof.
  intros N F E. rewrite (like_uniform _ _ _ _ N F), quantity_scalar. cbn [bind]. apply to_quant_err, E.
Qed.

(* ---- unitsto ---- *)
Lemma to_first_skip x l1 l2 : Forall (fun u => to u x = Err TypeError) l1 -> to_first x (l1 ++ l2) = to_first x l2.
Proof. induction 1 as [|u l H _ IH]; [reflexivity|]. cbn [app to_first]. rewrite H. exact IH. Qed.
Lemma unitsto_first v x l1 u l2 : sized u -> Forall (fun w => u_dim w <> u_dim v) l1 -> u_dim u = u_dim v ->
  exists y, unitsto (One (Quant v x)) (l1 ++ u :: l2) = Ok (One (Quant u y)) /\ y * u_size u = x * u_size v.
Proof.
  intros H F E. unfold unitsto. rewrite quantity_default. cbn [bind]. rewrite to_first_skip.
  - destruct (to_quant u v x (eq_sym E) H) as (y & T & Y). exists y. split; [|exact Y]. cbn [to_first]. rewrite T. reflexivity.
  - eapply Forall_impl; [|exact F]. intros w N. apply to_quant_err. congruence.
Qed.
Lemma unitsto_none v x l : Forall (fun w => u_dim w <> u_dim v) l -> unitsto (One (Quant v x)) l = Err RuntimeError.
Proof.
  intro F. unfold unitsto. rewrite quantity_default. cbn [bind]. rewrite <- (app_nil_r l), to_first_skip; [reflexivity|].
  eapply Forall_impl; [|exact F]. intros w N. apply to_quant_err. congruence.
Qed.
Lemma unitsto_array v x l1 u l2 l : sized u -> sized v -> Forall (fits v) l -> Forall (fun w => u_dim w <> u_dim v) l1 -> u_dim u = u_dim v ->
  exists m, unitsto (Many (Quant v x :: l)) (l1 ++ u :: l2) = Ok (QArray u m) /\ meaning (QArray u m) = meaning (Many (Quant v x :: l)).
Proof.
  intros H Hv Fl F E. unfold unitsto. destruct (quantity_quantities None true v x l Hv Fl) as (m & -> & M). cbn [bind]. rewrite to_first_skip.
  - destruct (to_qarray u v m (eq_sym E) H) as (y & T & Y). exists y. split; [cbn [to_first]; rewrite T; reflexivity|].
    rewrite <- M. exact Y.
  - eapply Forall_impl; [|exact F]. intros w N. apply to_qarray_err. congruence.
Qed.

(* ---- binary_operator ---- *)
Lemma binary_numbers x y : binary_arguments (One (Num x)) (One (Num y)) = Ok (One (Num x), One (Num y)).
Proof. reflexivity. Qed.
Lemma binary_quantities v x w y : sized v -> u_dim w = u_dim v ->
  exists z, binary_arguments (One (Quant v x)) (One (Quant w y)) = Ok (One (Quant v x), One (Quant v z)) /\ z * u_size v = y * u_size w.
Proof.
  intros H E. destruct (like_quantity false w y (One (Quant v x)) v H) as (z & T & Z); [discriminate | repeat constructor | exact E|].
  exists z. split; [|exact Z]. unfold binary_arguments. rewrite quantity_default. cbn [bind]. rewrite T. reflexivity.
Qed.
Lemma binary_dimension v x w y : u_dim w <> u_dim v -> binary_arguments (One (Quant v x)) (One (Quant w y)) = Err TypeError.
Proof.
  intro E. unfold binary_arguments. rewrite quantity_default. cbn [bind]. rewrite (like_error false w y _ v); [reflexivity | discriminate | repeat constructor | exact E].
Qed.
Lemma binary_number_right v x y : sized v -> binary_arguments (One (Quant v x)) (One (Num y)) = Ok (One (Quant v x), One (Quant v y)).
Proof.
  intro H. unfold binary_arguments. rewrite quantity_default. cbn [bind]. rewrite (like_number false y _ v H); [reflexivity | discriminate | repeat constructor].
Qed.
Lemma binary_number_left v x y : u_dim v <> [] -> binary_arguments (One (Num x)) (One (Quant v y)) = Err TypeError.
Proof.
  intro H. unfold binary_arguments. rewrite quantity_default. cbn [bind]. unfold quantity_like. cbn [units unit1 forallb magnitude].
  rewrite magnitude1_err; [reflexivity | exact H].
Qed.
