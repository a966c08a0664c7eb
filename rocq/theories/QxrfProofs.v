From Verif Require Import QxrfModel QxrfSpec DiodeProofs BaseProofs.
From Coq Require Import String Lia.
Local Open Scope string_scope.
Local Open Scope list_scope.
Local Open Scope Qc_scope.

(* ---- devices ---- *)
Lemma update_geom_source s x : x_source (update_geom s x) = Some s. Proof. reflexivity. Qed.
Lemma consistent_update g : fst (g_reference g) = Hz \/ fst (g_reference g) = Counts -> consistent (update g).
Proof.
  intros R. split; [|split; [|exact R]].
  - intros v V. cbn in V. destruct (g_I0 g) as [w|]; [|discriminate]. cbn in V. assert (v = update_diode g w) as -> by congruence.
    cbn. split; [reflexivity|]. split; [reflexivity|]. destruct (v_target w); [right|left]; reflexivity.
  - intros s x E I. cbn in E, I. rewrite E in I. apply in_map_iff in I. destruct I as (y & <- & _). reflexivity.
Qed.
Lemma consistent_set r s g g' : consistent g -> set_attr r s g = (g', Ok tt) -> consistent g'.
Proof.
  intros (A & B & C) E.
  destruct s; cbn [set_attr] in E.
  - injection E as <-. apply consistent_update. exact C.
  - destruct (generate (r_optics r) d) as [o|e]; [|discriminate]. injection E as <-. apply consistent_update. exact C.
  - destruct (generate (r_sources r) d) as [o|e]; [|discriminate]. injection E as <-. apply consistent_update. exact C.
  - destruct (make_geoms r l) as [m [u|e]]; [|discriminate]. injection E as <-. apply consistent_update. exact C.
  - destruct (generate (r_diodes r) d) as [o|e]; [|discriminate]. injection E as <-. apply consistent_update. exact C.
  - destruct (generate (r_diodes r) d) as [o|e]; [|discriminate]. injection E as <-. apply consistent_update. exact C.
  - destruct u; try discriminate; injection E as <-; (split; [exact A|split; [exact B|]]); cbn; [right|left|right]; reflexivity.
  - injection E as <-. split; [exact A|]. split; [exact B|exact C].
Qed.
Lemma consistent_sets r l : forall g g', consistent g -> set_attrs r l g = (g', Ok tt) -> consistent g'.
Proof.
  induction l as [|s l IH]; intros g g' C E; cbn [set_attrs] in E; [injection E as <-; exact C|].
  destruct (set_attr r s g) as [h [[]|e]] eqn:S1; [|discriminate]. eapply IH; [|exact E]. eapply consistent_set; eassumption.
Qed.
Lemma consistent_blank i t f s : consistent (blank i t f s).
Proof. split; [discriminate|]. split; [discriminate|]. left. reflexivity. Qed.
Lemma consistent_construct r i d0 dt simple fl tr gs det ge o s ref rt ex g :
  construct r i d0 dt simple fl tr gs det ge o s ref rt ex = Ok g -> consistent g.
Proof.
  unfold construct. intros E.
  match type of E with match set_attrs r ?l ?b with _ => _ end = _ => destruct (set_attrs r l b) as [h [[]|e]] eqn:S1 end; [|discriminate].
  injection E as <-. eapply consistent_sets; [apply consistent_blank|exact S1].
Qed.

(* failures leave the object, except for the geometries *)
Lemma failed_unchanged r s g g' e : set_attr r s g = (g', Err e) -> (forall l, s <> Geometries l) -> g' = g.
Proof.
  intros E N. destruct s; cbn [set_attr] in E.
  - discriminate.
  - destruct (generate (r_optics r) d); [discriminate|]. congruence.
  - destruct (generate (r_sources r) d); [discriminate|]. congruence.
  - destruct (N l eq_refl).
  - destruct (generate (r_diodes r) d); [discriminate|]. congruence.
  - destruct (generate (r_diodes r) d); [discriminate|]. congruence.
  - destruct u; congruence.
  - discriminate.
Qed.
Lemma make_geoms_asked r l : forall m x, make_geoms r l = (m, x) ->
  exists l1 l2, l = l1 ++ l2 /\ Forall2 (asked r) l1 m /\ (x = Ok tt -> l2 = []) /\
    (forall e, x = Err e -> exists a b l3, e = RuntimeError /\ l2 = Pair a b :: l3 /\ (lookup String.eqb a (r_geoms r) = None \/ lookup String.eqb b (r_detectors r) = None)).
Proof.
  induction l as [|s l IH]; intros m x E; cbn [make_geoms] in E.
  - injection E as <- <-. exists [], []. split; [reflexivity|]. split; [constructor|]. split; [reflexivity|discriminate].
  - destruct (make_geom r s) as [y|e] eqn:M.
    + destruct (make_geoms r l) as [m' e'] eqn:G. injection E as <- <-. destruct (IH m' e' eq_refl) as (l1 & l2 & -> & F & O & R).
      exists (s :: l1), l2. split; [reflexivity|]. split; [|split; [exact O|exact R]]. constructor; [|exact F].
      destruct s as [z|a b]; cbn [make_geom] in M.
      * injection M as <-. constructor; reflexivity.
      * unfold factory in M. destruct (lookup String.eqb a (r_geoms r)) as [z|] eqn:L1; [|discriminate]. cbn [bind] in M.
        destruct (lookup String.eqb b (r_detectors r)) as [d|] eqn:L2; [|discriminate]. cbn [bind] in M. injection M as <-.
        eapply AskedPair; eauto.
    + injection E as <- <-. exists [], (s :: l). split; [reflexivity|]. split; [constructor|]. split; [discriminate|].
      intros e' H. destruct s as [z|a b]; cbn [make_geom] in M; [discriminate|]. exists a, b, l. unfold factory in M.
      destruct (lookup String.eqb a (r_geoms r)) as [z|]; cbn [bind] in M; [|split; [congruence|split; [reflexivity|left; reflexivity]]].
      destruct (lookup String.eqb b (r_detectors r)) as [d|]; cbn [bind] in M; [discriminate|]. split; [congruence|]. split; [reflexivity|right; reflexivity].
Qed.
Lemma asked_updated r s x src : asked r s x -> asked r s (update_geom src x).
Proof. intros H. inversion H; subst; [constructor|eapply AskedPair]; eauto. Qed.
Lemma geometries_set r l g : 
  (forall g', set_attr r (Geometries l) g = (g', Ok tt) -> Forall2 (asked r) l (g_geoms g')) /\
  (forall g' e, set_attr r (Geometries l) g = (g', Err e) -> e = RuntimeError /\ exists l1 a b l2, l = l1 ++ Pair a b :: l2 /\ Forall2 (asked r) l1 (g_geoms g') /\
     (lookup String.eqb a (r_geoms r) = None \/ lookup String.eqb b (r_detectors r) = None)).
Proof.
  cbn [set_attr]. destruct (make_geoms r l) as [m x] eqn:M. destruct (make_geoms_asked _ _ _ _ M) as (l1 & l2 & -> & F & O & R).
  destruct x as [[]|e].
  - rewrite (O eq_refl) in *. split; [|discriminate]. intros g' E. injection E as <-. rewrite app_nil_r. cbn.
    destruct (g_source g) as [s|]; [|exact F]. clear -F. induction F; cbn; constructor; [apply asked_updated|]; assumption.
  - split; [discriminate|]. intros g' e' E. injection E as <- <-. destruct (R e eq_refl) as (a & b & l3 & -> & -> & H).
    split; [reflexivity|]. exists l1, a, b, l3. split; [reflexivity|]. split; [exact F|exact H].
Qed.

Lemma map_update_id s l : (forall x, In x l -> x_source x = Some s) -> map (update_geom s) l = l.
Proof.
  induction l as [|x l IH]; intros H; [reflexivity|]. cbn [map]. rewrite IH by (intros y Y; apply H; right; exact Y).
  f_equal. pose proof (H x (or_introl eq_refl)) as E. destruct x. cbn in *. unfold update_geom. cbn. congruence.
Qed.
Lemma make_made r l : make_geoms r (map Made l) = (l, Ok tt).
Proof. induction l as [|x l IH]; [reflexivity|]. cbn [map make_geoms make_geom]. rewrite IH. reflexivity. Qed.
Lemma generate_object {A} (r : list (string * A)) o : generate r (object_of o) = Ok o. Proof. destruct o; reflexivity. Qed.
Lemma update_id g : consistent g -> update g = g.
Proof.
  intros (A & B & _). destruct g as [i b o s l v0 vt ref rt ex fi ti]. unfold update. cbn [g_instrument g_simple g_optics g_source g_geoms g_I0 g_It g_reference g_reftime g_expotime g_fluxid g_transid] in *.
  f_equal.
  - destruct s as [s|]; [|reflexivity]. apply map_update_id. intros x. apply B. reflexivity.
  - destruct v0 as [v|]; [|reflexivity]. destruct (A v eq_refl) as (P & Q & T). cbn [option_map]. f_equal. destruct v as [c vo tg vs d]. cbn in *.
    unfold update_diode. cbn. destruct T as [-> | ->]; congruence.
Qed.
Lemma sets_cons r s l g g' : set_attr r s g = (g', Ok tt) -> set_attrs r (s :: l) g = set_attrs r l g'.
Proof. intros E. cbn [set_attrs]. rewrite E. reflexivity. Qed.
Lemma roundtrip r g : consistent g -> setstate r g = Ok g.
Proof.
  intros (A & B & C). destruct g as [i b o s l v0 vt [u x] rt ex fi ti]. cbn in A, B, C. unfold setstate, blank.
  cbn [g_instrument g_simple g_optics g_source g_geoms g_I0 g_It g_reference g_reftime g_expotime g_fluxid g_transid fst snd].
  rewrite (sets_cons _ _ _ _ (Geo i b None None [] None None (Hz, 0) rt NaN fi ti)) by reflexivity.
  rewrite (sets_cons _ _ _ _ (Geo i b o None [] None None (Hz, 0) rt NaN fi ti)) by (cbn [set_attr]; rewrite generate_object; reflexivity).
  rewrite (sets_cons _ _ _ _ (Geo i b o s [] None None (Hz, 0) rt NaN fi ti)) by (cbn [set_attr]; rewrite generate_object; destruct s; reflexivity).
  rewrite (sets_cons _ _ _ _ (Geo i b o s l None None (Hz, 0) rt NaN fi ti)).
  2:{ cbn [set_attr]. rewrite make_made. rewrite update_id; [reflexivity|]. split; [discriminate|]. split; [exact B|left; reflexivity]. }
  rewrite (sets_cons _ _ _ _ (Geo i b o s l v0 None (Hz, 0) rt NaN fi ti)).
  2:{ cbn [set_attr]. rewrite generate_object. rewrite update_id; [reflexivity|]. split; [exact A|]. split; [exact B|left; reflexivity]. }
  rewrite (sets_cons _ _ _ _ (Geo i b o s l v0 vt (Hz, 0) rt NaN fi ti)).
  2:{ cbn [set_attr]. rewrite generate_object. rewrite update_id; [reflexivity|]. split; [exact A|]. split; [exact B|left; reflexivity]. }
  rewrite (sets_cons _ _ _ _ (Geo i b o s l v0 vt (u, x) rt NaN fi ti)) by (destruct C as [-> | ->]; reflexivity).
  reflexivity.
Qed.
Lemma equal_self same g : (forall h, same h h = true) -> (geo_eqb same g g = true <-> g_expotime g <> NaN).
Proof.
  intros H. unfold geo_eqb. rewrite H. cbn [andb]. destruct (g_expotime g) as [q| | |]; cbn; split; intros E; try discriminate; try reflexivity.
  - apply Qc_eqb_spec. reflexivity.
  - destruct (E eq_refl).
Qed.
Lemma never_equal same g h : g_expotime g = NaN -> geo_eqb same g h = false.
Proof. intros E. unfold geo_eqb. rewrite E. cbn. apply Bool.andb_false_r. Qed.

Lemma reference_set r u x g :
  (u = Hz -> set_attr r (Reference u x) g = (with_reference (Hz, x) g, Ok tt)) /\
  (u = Counts \/ u = Plain -> set_attr r (Reference u x) g = (with_reference (Counts, x) g, Ok tt)) /\
  (u = Ampere \/ u = Volt \/ u = Other -> set_attr r (Reference u x) g = (g, Err TypeError)).
Proof.
  split; [intros ->; reflexivity|]. split; [intros [-> | ->]; reflexivity|]. intros [-> | [-> | ->]]; reflexivity.
Qed.

(* ---- lists of geometries ---- *)
Lemma zip_positions_spec l : forall v, map x_position (zip_positions l v) = firstn (List.length l) v ++ skipn (List.length v) (map x_position l).
Proof.
  induction l as [|x l IH]; intros [|p v]; cbn [zip_positions map firstn skipn List.length]; try reflexivity.
  cbn [x_position app]. f_equal. apply IH.
Qed.
Lemma zip_positions_rest l : forall v, map (fun x => (x_class x, x_source x, x_detector x, x_filter x)) (zip_positions l v) =
  map (fun x => (x_class x, x_source x, x_detector x, x_filter x)) l.
Proof. induction l as [|x l IH]; intros [|p v]; cbn [zip_positions map]; try reflexivity. cbn. f_equal. apply IH. Qed.
Lemma set_positions_spec g v :
  positions (set_positions v g) = firstn (List.length (positions g)) v ++ skipn (List.length v) (positions g) /\
  map (fun x => (x_class x, x_source x, x_detector x, x_filter x)) (g_geoms (set_positions v g)) =
  map (fun x => (x_class x, x_source x, x_detector x, x_filter x)) (g_geoms g).
Proof.
  split; [|apply zip_positions_rest]. unfold positions, set_positions. cbn. rewrite map_length. apply zip_positions_spec.
Qed.
Lemma xrfgeometry_spec g : (forall x, xrfgeometry g = Ok x <-> g_geoms g = [x]) /\ (List.length (g_geoms g) <> 1%nat -> xrfgeometry g = Err RuntimeError).
Proof.
  unfold xrfgeometry. destruct (g_geoms g) as [|x [|y l]]; (split; [intros z; split; intros E; congruence|]); intros N; try reflexivity. destruct N. reflexivity.
Qed.

(* ---- normalisation ---- *)
Lemma time_chosen g e d t : chosen e d t -> g_expotime g = match d with Some x => Fin x | None => NaN end -> time_of g e = Some t.
Proof. intros H E. unfold time_of. inversion H; subst; [reflexivity|]. rewrite E. reflexivity. Qed.
Lemma norm g v r s f0 i0 e d t ref F rt tr : g_I0 g = Some v -> works (v_diode v) r s f0 i0 ->
  chosen e d t -> g_expotime g = match d with Some x => Fin x | None => NaN end -> chosen ref (Some (g_reference g)) (Hz, F) ->
  (tr = match rt with Some x => Some x | None => g_reftime g end) ->
  t <> 0 -> F <> 0 -> (forall x, tr = Some x -> x <> 0) ->
  exists op, xrfnormop g e ref rt = Ok (Some (op, F, match tr with Some x => x | None => t end, t)) /\
    forall f i u c, signals (v_diode v) r s f0 i0 f i u c ->
      eval op (Fin (c * t)) = Fin (f * t / (F * match tr with Some x => x | None => t end)).
Proof.
  intros V W T D R TR T0 F0 X. unfold xrfnormop. rewrite V, (time_chosen _ _ _ _ T D), <- TR.
  destruct (xrfnorm_flux _ _ _ _ _ t F tr W T0 F0 X) as (op & E & H).
  exists op. split; [|exact H].
  assert (G : ref = Some (Hz, F) \/ (ref = None /\ g_reference g = (Hz, F))).
  { inversion R; [left; reflexivity|right; split; reflexivity]. }
  destruct G as [-> | [-> ->]]; rewrite E; reflexivity.
Qed.
Lemma norm_counts g v r s f0 i0 e d t rt tr u f i w c y : g_I0 g = Some v -> works (v_diode v) r s f0 i0 ->
  chosen e d t -> g_expotime g = match d with Some x => Fin x | None => NaN end -> u = Plain \/ u = Counts ->
  (tr = match rt with Some x => Some x | None => g_reftime g end) ->
  t <> 0 -> signals (v_diode v) r s f0 i0 f i w c -> ScalarModel.round_sig f 2 = Ok y ->
  xrfnormop g e (Some (u, c * t)) rt = xrfnormop g e (Some (Hz, y)) rt.
Proof.
  intros V W T D U TR T0 S1 Y. unfold xrfnormop. rewrite V, (time_chosen _ _ _ _ T D).
  assert (E : match u with Plain => (Counts, c * t) | _ => (u, c * t) end = (Counts, c * t)) by (destruct U as [-> | ->]; reflexivity).
  destruct U as [-> | ->]; rewrite (xrfnorm_counts _ _ _ _ _ t f i w c _ y W T0 S1 Y); reflexivity.
Qed.
Lemma norm_plain g e x rt : xrfnormop g e (Some (Plain, x)) rt = xrfnormop g e (Some (Counts, x)) rt.
Proof. reflexivity. Qed.
Lemma norm_no_diode g e ref rt : g_I0 g = None -> xrfnormop g e ref rt = Err AttributeError.
Proof. intros E. unfold xrfnormop. rewrite E. destruct ref as [[[] x]|]; try reflexivity. destruct (g_reference g); reflexivity. Qed.
Lemma quantinfo_fails g e ref rt : g_geoms g <> [] -> exists x, quantinfo g e ref rt = Err x.
Proof.
  intros N. unfold quantinfo. destruct (xrfnormop g e ref rt) as [y|x]; cbn [bind]; [|eauto].
  destruct (g_geoms g); [destruct N; reflexivity|eauto].
Qed.
Lemma quantinfo_none g e ref rt : g_geoms g = [] -> 
  (forall y, xrfnormop g e ref rt = Ok (Some y) -> quantinfo g e ref rt = Ok (Some (fst (fst (fst y))), [])).
Proof. intros N y E. unfold quantinfo. rewrite E, N. reflexivity. Qed.
Lemma quantinfo_attribute g e ref rt y : g_geoms g <> [] -> xrfnormop g e ref rt = Ok y -> quantinfo g e ref rt = Err AttributeError.
Proof. intros N E. unfold quantinfo. rewrite E. cbn [bind]. destruct (g_geoms g); [destruct N; reflexivity|reflexivity]. Qed.

Lemma transmission_ok g T : g_geoms g <> [] -> (forall x, In x (g_geoms g) -> x_filter x = T) -> beamfilter_transmission g = Ok T.
Proof.
  intros N H. unfold beamfilter_transmission. destruct (g_geoms g) as [|x l]; [destruct N; reflexivity|]. cbn [map].
  rewrite (H x (or_introl eq_refl)). replace (forallb (Qc_eqb T) (map x_filter l)) with true; [reflexivity|].
  symmetry. apply forallb_forall. intros t I. apply in_map_iff in I. destruct I as (y & <- & I). apply Qc_eqb_spec. symmetry. apply H. right. exact I.
Qed.
Lemma transmission_differs g x y : In x (g_geoms g) -> In y (g_geoms g) -> x_filter x <> x_filter y -> beamfilter_transmission g = Err RuntimeError.
Proof.
  intros X Y N. unfold beamfilter_transmission. destruct (g_geoms g) as [|z l]; [destruct X|]. cbn [map].
  destruct (forallb (Qc_eqb (x_filter z)) (map x_filter l)) eqn:E; [|reflexivity]. rewrite forallb_forall in E.
  assert (H : forall w, In w (z :: l) -> x_filter w = x_filter z).
  { intros w [-> | I]; [reflexivity|]. symmetry. apply Qc_eqb_spec. apply E. apply in_map. exact I. }
  destruct N. rewrite (H x X), (H y Y). reflexivity.
Qed.
Lemma diodeop_ok ov g v r s f0 i0 e d t : ov = Some v -> works (v_diode v) r s f0 i0 ->
  chosen e d t -> g_expotime g = match d with Some x => Fin x | None => NaN end -> t <> 0 ->
  (exists op, diodeop ov g e false = Ok (Some (op, t)) /\ forall f i u c, signals (v_diode v) r s f0 i0 f i u c -> eval op (Fin (c * t)) = Fin f) /\
  (forall T, T <> 0 -> g_geoms g <> [] -> (forall x, In x (g_geoms g) -> x_filter x = T) ->
   exists op, diodeop ov g e true = Ok (Some (op, t)) /\ forall f i u c, signals (v_diode v) r s f0 i0 f i u c -> eval op (Fin (c * t)) = Fin (f / T)).
Proof.
  intros -> W C D T0. unfold diodeop. rewrite (time_chosen _ _ _ _ C D). unfold fluxop. cbn [default].
  pose proof (ntf _ _ _ _ _ W t T0) as N. rewrite N. cbn [bind].
  assert (H : forall f i u c, signals (v_diode v) r s f0 i0 f i u c -> countstoflux (v_diode v) t (Fin (c * t)) = Ok (Fin f)).
  { intros f i u c E. destruct (counts _ _ _ _ _ W f i u c t E T0) as (_ & X & _). exact X. }
  unfold countstoflux, conv in H. rewrite N in H. cbn [bind] in H.
  split.
  - eexists. split; [reflexivity|]. intros f i u c E. specialize (H f i u c E). congruence.
  - intros T TN NE A. rewrite (transmission_ok _ _ NE A). cbn [bind]. eexists. split; [reflexivity|].
    intros f i u c E. specialize (H f i u c E).
    assert (Z : Qc_eqb T 0 = false) by (destruct (Qc_eqb T 0) eqn:Q; [apply Qc_eqb_spec in Q; contradiction|reflexivity]).
    cbn [n_div]. rewrite Z.
    revert H. cbn [lin mul mul1 eval eval1 n_mul n_add]. generalize (1 / charge (v_diode v) * (1 / r * (1 / s)) * (1 / t)). intros m.
    generalize (0 * (1 / charge (v_diode v) * (1 / r * (1 / s))) + ((- f0 / s * (1 / r) + 0) * (1 / charge (v_diode v)) + - i0 / charge (v_diode v))). intros b H.
    assert (H' : m * (c * t) + b = f) by congruence. f_equal. rewrite <- H'. field. exact TN.
Qed.
Lemma diodeop_errors ov g e :
  (ov = None -> forall b, diodeop ov g e b = Err AttributeError) /\
  (forall v t, ov = Some v -> time_of g e = Some t -> t <> 0 -> forall r s f0 i0, works (v_diode v) r s f0 i0 ->
     (g_geoms g = [] -> diodeop ov g e true = Err IndexError) /\
     (forall x y, In x (g_geoms g) -> In y (g_geoms g) -> x_filter x <> x_filter y -> diodeop ov g e true = Err RuntimeError)).
Proof.
  split; [intros -> b; reflexivity|]. intros v t -> T T0 r s f0 i0 W. unfold diodeop. rewrite T. unfold fluxop. cbn [default].
  rewrite (ntf _ _ _ _ _ W t T0). cbn [bind]. split.
  - intros E. unfold beamfilter_transmission. rewrite E. reflexivity.
  - intros x y X Y N. rewrite (transmission_differs g x y X Y N). reflexivity.
Qed.
