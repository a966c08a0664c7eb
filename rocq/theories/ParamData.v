(* The values that are seen, set and deleted. *)
From Verif Require Import Base BaseProofs ParamModel ParamSpec ParamProofs ParamLinks.
Local Open Scope nat_scope.

Lemma nat_deq : decides_eq Nat.eqb.
Proof. intros x y. apply Nat.eqb_eq. Qed.

Notation look := (lookup Nat.eqb).
Lemma local_nth h x c : nth_error h x = Some c -> local_map h x = data c.
Proof. intros E. unfold local_map. rewrite E. reflexivity. Qed.
Lemma tidy_local h x : tidy h -> NoDup (keys (local_map h x)).
Proof. intros T. unfold local_map. destruct (nth_error h x) as [c|] eqn:E; [exact (T x c E) | constructor]. Qed.

Lemma sees_first h x l k v : tidy h -> chain h x l -> (sees h x k v <-> first_map k (map (local_map h) l) = Ok v).
Proof.
  intros T C. revert v. induction C as [x U|x p l U C IH]; intros v; cbn [map first_map].
  - destruct U as (c & E & U). rewrite (local_nth h x c E). split.
    + intros S. inversion S as [y d k' v' Ed I|y d q k' v' Ed N Q S']; subst; rewrite E in Ed; injection Ed as <-.
      * rewrite (In_lookup Nat.eqb nat_deq k v (data c) (T x c E) I). reflexivity.
      * congruence.
    + destruct (look k (data c)) as [w|] eqn:Lk; [|discriminate]. intros F. injection F as <-. apply (Sees_own h x c); [exact E|].
      exact (lookup_Some_In Nat.eqb nat_deq _ _ _ Lk).
  - destruct U as (c & E & U). rewrite (local_nth h x c E). destruct (look k (data c)) as [w|] eqn:Lk.
    + split.
      * intros S. inversion S as [y d k' v' Ed I|y d q k' v' Ed N Q S']; subst; rewrite E in Ed; injection Ed as <-.
        -- rewrite (In_lookup Nat.eqb nat_deq k v (data c) (T x c E) I) in Lk. congruence.
        -- exfalso. apply N. apply (in_map fst) with (x := (k, w)). exact (lookup_Some_In Nat.eqb nat_deq _ _ _ Lk).
      * intros F. injection F as <-. apply (Sees_own h x c); [exact E|]. exact (lookup_Some_In Nat.eqb nat_deq _ _ _ Lk).
    + rewrite <- IH. split.
      * intros S. inversion S as [y d k' v' Ed I|y d q k' v' Ed N Q S']; subst; rewrite E in Ed; injection Ed as <-.
        -- rewrite (In_lookup Nat.eqb nat_deq k v (data c) (T x c E) I) in Lk. discriminate.
        -- congruence.
      * intros S. apply (Sees_up h x c p); [exact E | | exact U | exact S]. apply (lookup_None Nat.eqb nat_deq). exact Lk.
Qed.

Lemma maps_chain h x l : chain h x l -> maps h x true = Ok (map (local_map h) l).
Proof. intros C. unfold maps. rewrite (iter_up_chain _ _ _ C). reflexivity. Qed.
Lemma getitem_chain h x l k : chain h x l -> getitem h x k = first_map k (map (local_map h) l).
Proof. intros C. unfold getitem. rewrite (maps_chain _ _ _ C). reflexivity. Qed.
Lemma first_map_cases k ms : (exists v, first_map k ms = Ok v) \/ first_map k ms = Err KeyError.
Proof. induction ms as [|m ms IH]; cbn; [right; reflexivity|]. destruct (look k m) as [v|]; [left; exists v; reflexivity | exact IH]. Qed.

Lemma getitem_sees h x k v : linked h -> tidy h -> x < length h -> (getitem h x k = Ok v <-> sees h x k v).
Proof.
  intros L T X. destruct (linked_chain h x L X) as [l C]. rewrite (getitem_chain _ _ _ _ C). symmetry. apply sees_first; assumption.
Qed.
Lemma getitem_missing h x k : linked h -> tidy h -> x < length h -> (getitem h x k = Err KeyError <-> forall v, ~ sees h x k v).
Proof.
  intros L T X. destruct (linked_chain h x L X) as [l C]. rewrite (getitem_chain _ _ _ _ C).
  split.
  - intros E v S. apply (sees_first h x l k v T C) in S. congruence.
  - intros N. destruct (first_map_cases k (map (local_map h) l)) as [[v E]|E]; [|exact E].
    exfalso. apply (N v). apply (sees_first h x l k v T C). exact E.
Qed.
Lemma sees_fun h x k v w : linked h -> tidy h -> x < length h -> sees h x k v -> sees h x k w -> v = w.
Proof. intros L T X A B. apply (getitem_sees h x k _ L T X) in A, B. congruence. Qed.
Lemma sees_lt h x k v : sees h x k v -> x < length h.
Proof. intros []; apply nth_error_Some; congruence. Qed.
Lemma getitem_total h x k : linked h -> x < length h -> (exists v, getitem h x k = Ok v) \/ getitem h x k = Err KeyError.
Proof. intros L X. destruct (linked_chain h x L X) as [l C]. rewrite (getitem_chain _ _ _ _ C). apply first_map_cases. Qed.

(* ---- keys ---- *)
Lemma ue_In l : forall seen k, In k (unique_everseen seen l) <-> In k l /\ ~ In k seen.
Proof.
  induction l as [|a l IH]; intros seen k; cbn [unique_everseen In]; [tauto|].
  destruct (existsb (Nat.eqb a) seen) eqn:E.
  - apply existsb_In in E. rewrite IH. split; [tauto|]. intros [[->|I] N]; [contradiction | tauto].
  - apply existsb_notIn in E. cbn [In]. rewrite IH. cbn [In]. split.
    + intros [-> | [I N]]; [tauto|]. split; [right; exact I|]. tauto.
    + intros [[-> | I] N]; [left; reflexivity|]. destruct (Nat.eq_dec a k) as [->|D]; [left; reflexivity | right; split; [exact I | intros [J | J]; [congruence | contradiction]]].
Qed.
Lemma ue_NoDup l : forall seen, NoDup (unique_everseen seen l).
Proof.
  induction l as [|a l IH]; intros seen; cbn [unique_everseen]; [constructor|].
  destruct (existsb (Nat.eqb a) seen); [apply IH|]. constructor; [|apply IH]. rewrite ue_In. intros [_ N]. apply N. left. reflexivity.
Qed.
Lemma ue_prefix l r : forall seen, NoDup l -> (forall k, In k l -> ~ In k seen) -> exists t, unique_everseen seen (l ++ r) = l ++ t.
Proof.
  induction l as [|a l IH]; intros seen N D; cbn [app unique_everseen].
  - eexists. reflexivity.
  - assert (E : existsb (Nat.eqb a) seen = false) by (apply existsb_notIn; apply D; left; reflexivity). rewrite E.
    destruct (IH (a :: seen)) as [t T].
    + inversion N; assumption.
    + intros k I [J | J]; [subst; inversion N; contradiction | exact (D k (or_intror I) J)].
    + rewrite T. exists t. reflexivity.
Qed.

Lemma first_map_In k ms : (exists v, first_map k ms = Ok v) <-> In k (concat (map keys ms)).
Proof.
  induction ms as [|m ms IH]; cbn [first_map map concat].
  - split; [intros [v E]; discriminate | intros []].
  - rewrite in_app_iff, <- IH. destruct (look k m) as [v|] eqn:E.
    + split; [|intros _; exists v; reflexivity]. intros _. left. apply (mem_true Nat.eqb nat_deq). unfold mem. rewrite E. reflexivity.
    + apply (lookup_None Nat.eqb nat_deq) in E. tauto.
Qed.

Lemma iter_keys_spec h x : linked h -> tidy h -> x < length h -> exists ks, iter_keys h x true = Ok ks /\ NoDup ks /\
  (forall k, In k ks <-> exists v, sees h x k v) /\ (exists t, ks = keys (local_map h x) ++ t) /\ len h x = Ok (length ks).
Proof.
  intros L T X. destruct (linked_chain h x L X) as [l C]. unfold iter_keys, len. rewrite (maps_chain _ _ _ C). cbn [bind].
  eexists. split; [reflexivity|]. split; [apply ue_NoDup|]. split; [|split].
  - intros k. rewrite ue_In, <- first_map_In. split.
    + intros [[v E] _]. exists v. apply (sees_first h x l k v T C). exact E.
    + intros [v S]. split; [|intros []]. exists v. apply (sees_first h x l k v T C). exact S.
  - destruct (chain_head _ _ _ C) as [t ->]. cbn [map concat]. apply ue_prefix; [apply tidy_local; exact T | intros k _ []].
  - f_equal. apply Permutation_length. apply NoDup_Permutation; [apply NoDup_nodup | apply ue_NoDup|].
    intros k. rewrite nodup_In, ue_In. split; [intros I; split; [exact I | intros []] | tauto].
Qed.

Lemma mapM_pairs h x ks : (forall k, In k ks -> exists v, getitem h x k = Ok v) ->
  exists vs, mapM (fun k => let! v := getitem h x k in Ok (k, v)) ks = Ok vs /\ map fst vs = ks /\ forall k v, In (k, v) vs <-> In k ks /\ getitem h x k = Ok v.
Proof.
  induction ks as [|k ks IH]; intros H; cbn [mapM].
  - exists []. split; [reflexivity|]. split; [reflexivity|]. intros k v. cbn [In]. tauto.
  - destruct (H k (or_introl eq_refl)) as [v E]. destruct IH as (vs & Es & Ek & Ei); [intros k' I; apply H; right; exact I|].
    rewrite E. cbn [bind]. rewrite Es. cbn [bind]. exists ((k, v) :: vs). split; [reflexivity|]. split; [cbn; rewrite Ek; reflexivity|].
    intros k' v'. cbn [In]. rewrite Ei. split.
    + intros [F | F]; [injection F as <- <-; tauto | tauto].
    + intros [[<- | I] F]; [left; congruence | tauto].
Qed.
Lemma items_spec h x : linked h -> tidy h -> x < length h -> exists vs, items h x = Ok vs /\ NoDup (map fst vs) /\ forall k v, In (k, v) vs <-> sees h x k v.
Proof.
  intros L T X. destruct (iter_keys_spec h x L T X) as (ks & E & N & I & _ & _). unfold items. rewrite E. cbn [bind].
  destruct (mapM_pairs h x ks) as (vs & Es & Ek & Ei).
  { intros k J. apply I in J. destruct J as [v S]. exists v. apply getitem_sees; assumption. }
  exists vs. split; [exact Es|]. split; [rewrite Ek; exact N|]. intros k v. rewrite Ei, (getitem_sees h x k v L T X). split; [tauto|].
  intros S. split; [|exact S]. apply I. exists v. exact S.
Qed.
Lemma contains_spec h x k : linked h -> tidy h -> x < length h -> exists b, contains h x k = Ok b /\ (b = true <-> exists v, sees h x k v).
Proof.
  intros L T X. destruct (linked_chain h x L X) as [l C]. unfold contains. rewrite (maps_chain _ _ _ C). cbn [bind].
  eexists. split; [reflexivity|]. rewrite existsb_exists. split.
  - intros (m & I & E). assert (F : In k (concat (map keys (map (local_map h) l)))).
    { apply in_concat. exists (keys m). split; [apply in_map; exact I | apply (mem_true Nat.eqb nat_deq); exact E]. }
    apply first_map_In in F. destruct F as [v F]. exists v. apply (sees_first h x l k v T C). exact F.
  - intros [v S]. apply (sees_first h x l k v T C) in S. assert (F : In k (concat (map keys (map (local_map h) l)))) by (apply first_map_In; exists v; exact S).
    apply in_concat in F. destruct F as (ks & I & J). apply in_map_iff in I. destruct I as (m & <- & I). exists m. split; [exact I | apply (mem_true Nat.eqb nat_deq); exact J].
Qed.

(* ---- heaps with the same links ---- *)
Definition links (c : pnode) := (up c, down c).
Definition same_links (h h' : heap) : Prop := forall y, option_map links (nth_error h' y) = option_map links (nth_error h y).
Lemma same_links_refl h : same_links h h.
Proof. intros y. reflexivity. Qed.
Lemma same_links_trans h h' h'' : same_links h h' -> same_links h' h'' -> same_links h h''.
Proof. intros A B y. rewrite B. apply A. Qed.
Lemma same_links_sym h h' : same_links h h' -> same_links h' h.
Proof. intros A y. symmetry. apply A. Qed.
Lemma same_links_cell h h' y c : same_links h h' -> nth_error h y = Some c -> exists c', nth_error h' y = Some c' /\ up c' = up c /\ down c' = down c.
Proof.
  intros S E. specialize (S y). rewrite E in S. cbn in S. destruct (nth_error h' y) as [c'|]; [|discriminate]. injection S as A B.
  exists c'. repeat split; assumption.
Qed.
Lemma same_links_length h h' : same_links h h' -> length h' = length h.
Proof.
  intros S. destruct (Nat.lt_trichotomy (length h') (length h)) as [I|[I|I]]; [|exact I|]; exfalso.
  - specialize (S (length h')). rewrite (proj2 (nth_error_None h' (length h')) (le_n _)) in S. cbn in S.
    apply nth_error_Some in I. destruct (nth_error h (length h')); [discriminate | contradiction].
  - specialize (S (length h)). rewrite (proj2 (nth_error_None h (length h)) (le_n _)) in S. cbn in S.
    apply nth_error_Some in I. destruct (nth_error h' (length h)); [discriminate | contradiction].
Qed.
Lemma same_links_under h h' y p : same_links h h' -> under h y p -> under h' y p.
Proof. intros S (c & E & U). destruct (same_links_cell _ _ _ _ S E) as (c' & E' & A & _). exists c'. split; [exact E' | congruence]. Qed.
Lemma same_links_chain h h' y l : same_links h h' -> chain h y l -> chain h' y l.
Proof. intros S. apply chain_avoid. intros z p _. exact (same_links_under h h' z p S). Qed.
Lemma same_links_linked h h' : same_links h h' -> linked h -> linked h'.
Proof.
  intros S L. split.
  - intros x X. rewrite (same_links_length _ _ S) in X. destruct (linked_chain h x L X) as [l C]. exists l. exact (same_links_chain _ _ _ _ S C).
  - intros p c E. destruct (same_links_cell _ _ _ _ (same_links_sym _ _ S) E) as (c0 & E0 & _ & D). rewrite <- D.
    destruct (linked_down h p c0 L E0) as [A B]. split; [exact A|]. intros y. rewrite B. split; apply same_links_under; [exact S | exact (same_links_sym _ _ S)].
Qed.
Lemma same_links_below h h' x y : same_links h h' -> at_or_below h x y -> at_or_below h' x y.
Proof. intros S (l & C & I). exists l. split; [exact (same_links_chain _ _ _ _ S C) | exact I]. Qed.
Lemma same_links_children h h' x : same_links h h' -> children h' x = children h x.
Proof.
  intros S. unfold children. specialize (S x). destruct (nth_error h' x), (nth_error h x); cbn in S; try discriminate; [|reflexivity].
  injection S as _ S. exact S.
Qed.
Lemma same_links_alter h x f : (forall c, links (f c) = links c) -> same_links h (alter h x f).
Proof.
  intros F y. rewrite nth_alter. destruct (Nat.eqb y x) eqn:Y; [|reflexivity]. apply Nat.eqb_eq in Y. subst.
  destruct (nth_error h x) as [c|]; cbn; [rewrite F|]; reflexivity.
Qed.

(* what is remembered of the last state *)
Definition lastof (h : heap) (x : nat) := match nth_error h x with Some c => last c | None => None end.

(* the values at the nodes of a chain decide what is seen *)
Lemma first_map_ext k (f g : nat -> list (key * value)) l : (forall z, In z l -> look k (f z) = look k (g z)) -> first_map k (map f l) = first_map k (map g l).
Proof.
  induction l as [|z l IH]; intros H; cbn [map first_map]; [reflexivity|]. rewrite (H z (or_introl eq_refl)).
  rewrite IH; [reflexivity|]. intros w I. apply H. right. exact I.
Qed.
Lemma sees_ext h h' y k l v : tidy h -> tidy h' -> chain h y l -> chain h' y l -> (forall z, In z l -> look k (local_map h' z) = look k (local_map h z)) ->
  (sees h' y k v <-> sees h y k v).
Proof.
  intros T T' C C' H. rewrite (sees_first h y l k v T C), (sees_first h' y l k v T' C'), (first_map_ext k _ _ l H). reflexivity.
Qed.
Lemma owns_look h z k : (owns h z k <-> look k (local_map h z) <> None).
Proof.
  unfold owns, local_map. destruct (nth_error h z) as [c|] eqn:E.
  - split.
    + intros (d & F & I) N. injection F as <-. apply (lookup_None Nat.eqb nat_deq) in N. contradiction.
    + intros N. exists c. split; [reflexivity|]. destruct (in_dec Nat.eq_dec k (map fst (data c))) as [I|I]; [exact I|].
      exfalso. apply N. apply (lookup_None Nat.eqb nat_deq). exact I.
  - split; [intros (d & F & _); discriminate | intros N; exfalso; apply N; reflexivity].
Qed.
Lemma not_owns_look h z k : ~ owns h z k -> look k (local_map h z) = None.
Proof. rewrite owns_look. destruct (look k (local_map h z)) as [v|]; [|reflexivity]. intros N. exfalso. apply N. discriminate. Qed.

Lemma first_map_app k (a b : list (list (key * value))) : (forall m, In m a -> look k m = None) -> first_map k (a ++ b) = first_map k b.
Proof.
  induction a as [|m a IH]; intros H; cbn [app first_map]; [reflexivity|]. rewrite (H m (or_introl eq_refl)). apply IH. intros w I. apply H. right. exact I.
Qed.

(* ---- setting ---- *)
Lemma same_links_store h x k v : same_links h (store h x k v).
Proof. unfold store. apply same_links_alter. intros c. reflexivity. Qed.
Lemma local_store h x k v y : x < length h -> local_map (store h x k v) y = if Nat.eqb y x then assign Nat.eqb k v (local_map h x) else local_map h y.
Proof.
  intros X. unfold local_map, store. rewrite nth_alter. destruct (Nat.eqb y x) eqn:Y; [|reflexivity].
  destruct (nth_error h x) as [c|] eqn:E; cbn; [reflexivity|]. apply nth_error_None in E. lia.
Qed.
Lemma lastof_store h x k v y : lastof (store h x k v) y = lastof h y.
Proof.
  unfold lastof, store. rewrite nth_alter. destruct (Nat.eqb y x) eqn:Y; [|reflexivity]. apply Nat.eqb_eq in Y. subst.
  destruct (nth_error h x); reflexivity.
Qed.
Lemma tidy_store h x k v : tidy h -> tidy (store h x k v).
Proof.
  intros T y c E. unfold store in E. rewrite nth_alter in E. destruct (Nat.eqb y x) eqn:Y; [|exact (T y c E)].
  destruct (nth_error h x) as [d|] eqn:D; [|discriminate]. cbn in E. injection E as <-. cbn [data with_data with_fresh].
  apply (NoDup_keys_assign Nat.eqb nat_deq). exact (T x d D).
Qed.
Lemma look_assign k (v : value) m k' : look k' (assign Nat.eqb k v m) = if Nat.eqb k' k then Some v else look k' m.
Proof.
  destruct (Nat.eqb k' k) eqn:E.
  - apply Nat.eqb_eq in E. subst. apply (lookup_assign_same Nat.eqb nat_deq).
  - apply (lookup_assign_other Nat.eqb nat_deq). apply Nat.eqb_neq in E. congruence.
Qed.

Lemma setitem_plain h x k z : linked h -> tidy h -> x < length h -> ~ sees h x k Sub ->
  exists h', setitem h x k (GPlain z) = (h', Ok tt) /\ (h' = h /\ sees h x k (Plain z) \/ h' = store h x k (Plain z) /\ ~ sees h x k (Plain z)).
Proof.
  intros L T X N. unfold setitem. destruct (getitem_total h x k L X) as [[v E]|E]; rewrite E.
  - destruct v as [u|].
    + destruct (Z.eqb u z) eqn:U.
      * apply Z.eqb_eq in U. subst u. exists h. split; [reflexivity|]. left. split; [reflexivity|]. apply getitem_sees; assumption.
      * apply Z.eqb_neq in U. eexists. split; [reflexivity|]. right. split; [reflexivity|]. intros S. apply (getitem_sees h x k _ L T X) in S. congruence.
    + exfalso. apply N. apply getitem_sees; assumption.
  - eexists. split; [reflexivity|]. right. split; [reflexivity|]. exact (proj1 (getitem_missing h x k L T X) E _).
Qed.

Lemma not_covered h x y k l : linked h -> chain h y l -> ~ covered h x y k -> ~ In x l \/ exists a b, l = a ++ x :: b /\ exists w, In w a /\ owns h w k.
Proof.
  intros L C N. destruct (in_dec Nat.eq_dec x l) as [I|I]; [right | left; exact I].
  destruct (chain_In_chain _ _ _ _ C I) as (a & b & E & _). exists a, b. split; [exact E|].
  destruct (existsb (fun w => match look k (local_map h w) with Some _ => true | None => false end) a) eqn:B.
  - apply existsb_exists in B. destruct B as (w & J & F). exists w. split; [exact J|]. apply owns_look. destruct (look k (local_map h w)); [discriminate | discriminate].
  - exfalso. apply N. exists a, b. split; [rewrite <- E; exact C|]. intros w J O. apply owns_look in O. apply O.
    destruct (look k (local_map h w)) as [v|] eqn:F; [|reflexivity]. exfalso.
    assert (G : existsb (fun w => match look k (local_map h w) with Some _ => true | None => false end) a = true).
    { apply existsb_exists. exists w. split; [exact J | rewrite F; reflexivity]. }
    congruence.
Qed.

Lemma set_spec h x k z : linked h -> tidy h -> x < length h -> ~ sees h x k Sub ->
  exists h', setitem h x k (GPlain z) = (h', Ok tt) /\ linked h' /\ tidy h' /\ (forall y l, chain h y l <-> chain h' y l) /\
    (forall y, covered h x y k -> sees h' y k (Plain z)) /\
    (forall y k' v, y < length h -> k' <> k \/ ~ covered h x y k -> (sees h' y k' v <-> sees h y k' v)).
Proof.
  intros L T X N. destruct (setitem_plain h x k z L T X N) as (h' & E & [[-> S]|[-> S]]).
  - exists h. split; [exact E|]. split; [exact L|]. split; [exact T|]. split; [reflexivity|]. split; [|reflexivity].
    intros y (a & b & C & O). apply (sees_first h y _ k _ T C). rewrite map_app, first_map_app.
    + pose proof (chain_tail _ _ _ _ _ _ C eq_refl) as Cx. apply (sees_first h x _ k _ T Cx). exact S.
    + intros m I. apply in_map_iff in I. destruct I as (w & <- & I). apply not_owns_look. exact (O w I).
  - set (h' := store h x k (Plain z)). assert (SL : same_links h h') by apply same_links_store.
    assert (T' : tidy h') by (apply tidy_store; exact T).
    assert (LS : forall y, local_map h' y = if Nat.eqb y x then assign Nat.eqb k (Plain z) (local_map h x) else local_map h y) by (intros y; apply local_store; exact X).
    exists h'. split; [exact E|]. split; [exact (same_links_linked _ _ SL L)|]. split; [exact T'|]. split.
    { intros y l. split; apply same_links_chain; [exact SL | exact (same_links_sym _ _ SL)]. }
    split.
    + intros y (a & b & C & O). pose proof (same_links_chain _ _ _ _ SL C) as C'. apply (sees_first h' y _ k _ T' C'). rewrite map_app, first_map_app.
      * cbn [map first_map]. rewrite LS, Nat.eqb_refl, look_assign, Nat.eqb_refl. reflexivity.
      * intros m I. apply in_map_iff in I. destruct I as (w & <- & I). rewrite LS. destruct (Nat.eqb w x) eqn:W.
        -- apply Nat.eqb_eq in W. subst w. pose proof (chain_NoDup _ _ _ C) as ND. apply NoDup_remove_2 in ND. exfalso. apply ND. apply in_or_app. left. exact I.
        -- apply not_owns_look. exact (O w I).
    + intros y k' v Y H. destruct (linked_chain h y L Y) as [l C]. pose proof (same_links_chain _ _ _ _ SL C) as C'.
      destruct (Nat.eq_dec k' k) as [->|D].
      * assert (H' : ~ covered h x y k) by (destruct H as [H | H]; [contradiction | exact H]).
        destruct (not_covered h x y k l L C H') as [I | (a & b & El & w & Iw & O)].
        -- apply (sees_ext h h' y k l v T T' C C'). intros u Iu. rewrite LS. destruct (Nat.eqb u x) eqn:W; [|reflexivity].
           apply Nat.eqb_eq in W. subst. contradiction.
        -- rewrite (sees_first h y l k v T C), (sees_first h' y l k v T' C'), El, !map_app.
           assert (G : forall b1 b2, first_map k (map (local_map h') a ++ b1) = first_map k (map (local_map h) a ++ b2)).
           { assert (Xa : ~ In x a).
             { pose proof (chain_NoDup _ _ _ C) as ND. rewrite El in ND. apply NoDup_remove_2 in ND. intros J. apply ND. apply in_or_app. left. exact J. }
             clear -Iw O LS Xa. intros b1 b2. induction a as [|u a IH]; [destruct Iw|]. cbn [map app first_map].
             assert (Eu : local_map h' u = local_map h u). { rewrite LS. destruct (Nat.eqb u x) eqn:W; [|reflexivity]. apply Nat.eqb_eq in W. subst. exfalso. apply Xa. left. reflexivity. }
             rewrite Eu. destruct (look k (local_map h u)) as [q|] eqn:Q; [reflexivity|]. apply IH.
             - destruct Iw as [-> | Iw]; [|exact Iw]. apply owns_look in O. contradiction.
             - intros J. apply Xa. right. exact J. }
           rewrite (G (map (local_map h') (x :: b)) (map (local_map h) (x :: b))). reflexivity.
      * apply (sees_ext h h' y k' l v T T' C C'). intros u _. rewrite LS. destruct (Nat.eqb u x) eqn:W; [|reflexivity].
        apply Nat.eqb_eq in W. subst. rewrite look_assign, (proj2 (Nat.eqb_neq k' k) D). reflexivity.
Qed.
