(* The record of changes. *)
From Verif Require Import Base BaseProofs ParamModel ParamSpec ParamProofs ParamLinks ParamData ParamState.
Local Open Scope nat_scope.

Notation lookz := (@lookup nat Z Nat.eqb).
Definition as_plain (v : option value) : option Z := match v with Some (Plain z) => Some z | _ => None end.

Lemma hash_local_spec m : (forall k, ~ In (k, Sub) m) -> exists p, hash_local m = Ok p /\ keys p = keys m /\ forall k, lookz k p = as_plain (look k m).
Proof.
  unfold hash_local. induction m as [|[k v] m IH]; intros N; cbn [mapM].
  - exists []. repeat split.
  - destruct IH as (p & E & K & L); [intros k' I; apply (N k'); right; exact I|].
    destruct v as [z|]; [|exfalso; apply (N k); left; reflexivity]. cbn [snd fst bind]. rewrite E. cbn [bind].
    exists ((k, z) :: p). split; [reflexivity|]. split; [cbn; f_equal; exact K|]. intros k'. cbn [lookup]. destruct (Nat.eqb k' k); [reflexivity | apply L].
Qed.
Lemma plain_local h y k : plain h -> ~ In (k, Sub) (local_map h y).
Proof. intros P. unfold local_map. destruct (nth_error h y) as [c|] eqn:E; [exact (P y c k E) | intros []]. Qed.
Lemma plain_look h y k : plain h -> look k (local_map h y) <> Some Sub.
Proof. intros P E. apply (lookup_Some_In Nat.eqb nat_deq) in E. exact (plain_local h y k P E). Qed.

Definition shown (h : heap) (y : nat) (p : list (key * Z)) : Prop := keys p = keys (local_map h y) /\ forall k, lookz k p = as_plain (look k (local_map h y)).
Lemma snapshot_spec h x l : plain h -> chain h x l -> exists s, snapshot h x = Ok s /\ Forall2 (shown h) l s.
Proof.
  intros P C. unfold snapshot. rewrite (maps_chain _ _ _ C). cbn [bind]. clear C. induction l as [|y l IH]; cbn [map mapM].
  - exists []. split; [reflexivity | constructor].
  - destruct (hash_local_spec (local_map h y)) as (p & E & K); [intros k; apply plain_local; exact P|]. destruct IH as (s & Es & F).
    rewrite E. cbn [bind]. rewrite Es. cbn [bind]. exists (p :: s). split; [reflexivity|]. constructor; [exact K | exact F].
Qed.

Lemma same_map_len a b : same_map a b = true -> length a = length b.
Proof. unfold same_map. rewrite andb_true_iff, Nat.eqb_eq. tauto. Qed.
Lemma same_map_look a b k z : same_map a b = true -> lookz k a = Some z -> lookz k b = Some z.
Proof.
  unfold same_map. rewrite andb_true_iff, forallb_forall. intros [_ H] E. apply (lookup_Some_In Nat.eqb nat_deq) in E.
  specialize (H _ E). cbn [fst snd] in H. destruct (lookz k b) as [w|]; [|discriminate]. apply Z.eqb_eq in H. congruence.
Qed.
Lemma same_map_spec (a b : list (key * Z)) : NoDup (keys a) -> NoDup (keys b) -> (same_map a b = true <-> forall k, lookz k a = lookz k b).
Proof.
  intros Na Nb. split.
  - intros H k. destruct (lookz k a) as [z|] eqn:E; [symmetry; exact (same_map_look _ _ _ _ H E)|].
    destruct (lookz k b) as [w|] eqn:F; [exfalso|reflexivity].
    assert (I : incl (keys a) (keys b)).
    { intros j J. apply (mem_true Nat.eqb nat_deq) in J. unfold mem in J. destruct (lookz j a) as [u|] eqn:U; [|discriminate].
      apply (mem_true Nat.eqb nat_deq). unfold mem. rewrite (same_map_look _ _ _ _ H U). reflexivity. }
    assert (J : incl (keys b) (keys a)).
    { apply NoDup_length_incl; [exact Na | | exact I]. unfold keys. rewrite !map_length, (same_map_len _ _ H). reflexivity. }
    apply (lookup_None Nat.eqb nat_deq) in E. apply E. apply J. apply (mem_true Nat.eqb nat_deq). unfold mem. rewrite F. reflexivity.
  - intros H. unfold same_map. rewrite andb_true_iff, Nat.eqb_eq, forallb_forall. split.
    + rewrite <- (map_length fst a), <- (map_length fst b). apply Permutation_length. apply NoDup_Permutation; [exact Na | exact Nb|].
      intros k. change (In k (keys a) <-> In k (keys b)). rewrite <- !(mem_true Nat.eqb nat_deq). unfold mem. rewrite H. reflexivity.
    + intros [k z] I. cbn [fst snd]. rewrite <- H, (In_lookup Nat.eqb nat_deq k z a Na I). apply Z.eqb_refl.
Qed.
Lemma same_maps_spec a b : same_maps a b = true <-> Forall2 (fun m n => same_map m n = true) a b.
Proof.
  revert b. induction a as [|m a IH]; intros [|n b]; cbn [same_maps].
  - split; [constructor | reflexivity].
  - split; [discriminate | intros F; inversion F].
  - split; [discriminate | intros F; inversion F].
  - rewrite andb_true_iff, IH. split; [intros [A B]; constructor; assumption | intros F; inversion F; split; assumption].
Qed.

(* snapshots of two heaps *)
Definition like (h1 h2 : heap) (a b : nat) : Prop := forall k, look k (local_map h1 a) = look k (local_map h2 b).
Lemma same_snapshots h1 h2 l1 l2 s1 s2 : plain h1 -> plain h2 -> tidy h1 -> tidy h2 -> Forall2 (shown h1) l1 s1 -> Forall2 (shown h2) l2 s2 ->
  (same_maps s2 s1 = true <-> Forall2 (like h1 h2) l1 l2).
Proof.
  intros P1 P2 T1 T2 F1. revert l2 s2. induction F1 as [|y1 m1 l1 s1 H1 F1 IH]; intros l2 s2 F2; (destruct F2 as [|y2 m2 l2 s2 H2 F2]; cbn [same_maps]).
  - split; [constructor | reflexivity].
  - split; [discriminate | intros F; inversion F].
  - split; [discriminate | intros F; inversion F].
  - rewrite andb_true_iff, (IH l2 s2 F2). destruct H1 as [K1 L1], H2 as [K2 L2].
    assert (N1 : NoDup (keys m1)) by (rewrite K1; apply tidy_local; exact T1). assert (N2 : NoDup (keys m2)) by (rewrite K2; apply tidy_local; exact T2).
    rewrite (same_map_spec m2 m1 N2 N1).
    assert (Q : (forall k, lookz k m2 = lookz k m1) <-> like h1 h2 y1 y2).
    { unfold like. split; intros H k; specialize (H k).
      - rewrite L1, L2 in H. pose proof (plain_look h1 y1 k P1). pose proof (plain_look h2 y2 k P2).
        destruct (look k (local_map h1 y1)) as [[z|]|], (look k (local_map h2 y2)) as [[w|]|]; cbn in H; congruence.
      - rewrite L1, L2, H. reflexivity. }
    rewrite Q. split; [intros [A B]; constructor; assumption | intros F; inversion F; split; assumption].
Qed.

Lemma changed_spec h1 h2 y l1 l2 s1 : plain h1 -> plain h2 -> tidy h1 -> tidy h2 -> chain h1 y l1 -> chain h2 y l2 -> snapshot h1 y = Ok s1 -> lastof h2 y = Some s1 ->
  exists b, changed h2 y = Ok b /\ (b = false <-> Forall2 (like h1 h2) l1 l2).
Proof.
  intros P1 P2 T1 T2 C1 C2 S1 La. destruct (snapshot_spec h1 y l1 P1 C1) as (s1' & E1 & F1). rewrite S1 in E1. injection E1 as <-.
  destruct (snapshot_spec h2 y l2 P2 C2) as (s2 & E2 & F2). unfold changed. rewrite E2. cbn [bind]. fold (lastof h2 y). rewrite La.
  eexists. split; [reflexivity|]. rewrite negb_false_iff. exact (same_snapshots h1 h2 l1 l2 s1 s2 P1 P2 T1 T2 F1 F2).
Qed.

(* ---- reset ---- *)
Definition freshof (h : heap) (x : nat) := match nth_error h x with Some c => fresh c | None => [] end.
Definition marks (h h' : heap) (P : nat -> Prop) : Prop :=
  same_links h h' /\ (forall y, local_map h' y = local_map h y) /\
  (forall y, P y -> exists s, snapshot h y = Ok s /\ lastof h' y = Some s /\ freshof h' y = []) /\ (forall y, ~ P y -> lastof h' y = lastof h y /\ freshof h' y = freshof h y).

Lemma marks_tidy h h' P : marks h h' P -> tidy h -> tidy h'.
Proof.
  intros (S & D & _) T y c E. pose proof (tidy_local h y T) as N. rewrite <- D, (local_nth h' y c E) in N. exact N.
Qed.
Lemma marks_plain h h' P : marks h h' P -> plain h -> plain h'.
Proof. intros (S & D & _) N y c k E. rewrite <- (local_nth h' y c E), D. apply plain_local. exact N. Qed.
Lemma snapshot_same h h' y : same_links h h' -> (forall z, local_map h' z = local_map h z) -> linked h -> y < length h -> snapshot h' y = snapshot h y.
Proof.
  intros S D L Y. destruct (linked_chain h y L Y) as [l C]. unfold snapshot. rewrite (maps_chain _ _ _ C), (maps_chain _ _ _ (same_links_chain _ _ _ _ S C)).
  cbn [bind]. f_equal. apply map_ext. exact D.
Qed.
Lemma marks_trans h h' h'' (P Q : nat -> Prop) : linked h -> (forall y, P y \/ ~ P y) -> (forall y, Q y \/ ~ Q y) -> (forall y, Q y -> y < length h) ->
  marks h h' P -> marks h' h'' Q -> marks h h'' (fun y => P y \/ Q y).
Proof.
  intros L dP dQ B (S & D & M & N) (S' & D' & M' & N'). split; [exact (same_links_trans _ _ _ S S')|]. split; [intros y; rewrite D'; apply D|]. split.
  - intros y H. destruct (dQ y) as [q|q].
    + destruct (M' y q) as (s & E & F). exists s. split; [|exact F]. rewrite <- E. symmetry. apply snapshot_same; [exact S | exact D | exact L | exact (B y q)].
    + destruct H as [H | H]; [|contradiction]. destruct (M y H) as (s & E & F). exists s. split; [exact E|]. rewrite (proj1 (N' y q)), (proj2 (N' y q)). exact F.
  - intros y H. destruct (N' y) as [-> ->]; [tauto|]. apply N. tauto.
Qed.
Lemma marks_ext h h' (P Q : nat -> Prop) : (forall y, P y <-> Q y) -> marks h h' P -> marks h h' Q.
Proof.
  intros E (S & D & M & N). split; [exact S|]. split; [exact D|]. split; [intros y H; apply M, E; exact H | intros y H; apply N; intros I; apply H, E; exact I].
Qed.

Lemma marks_one h x : plain h -> linked h -> x < length h -> exists h', set_changed h x false = Ok h' /\ marks h h' (fun y => y = x).
Proof.
  intros P L X. destruct (linked_chain h x L X) as [l C]. destruct (snapshot_spec h x l P C) as (s & E & _). unfold set_changed. rewrite E. cbn [bind].
  eexists. split; [reflexivity|]. split; [apply same_links_alter; intros c; reflexivity|]. split; [|split].
  - intros y. unfold local_map. rewrite nth_alter. destruct (Nat.eqb y x) eqn:Y; [|reflexivity]. apply Nat.eqb_eq in Y. subst. destruct (nth_error h x); reflexivity.
  - intros y ->. exists s. split; [exact E|]. unfold lastof, freshof. rewrite nth_alter, Nat.eqb_refl. destruct (nth_error h x) as [c|] eqn:Ec; [split; reflexivity|].
    apply nth_error_None in Ec. lia.
  - intros y N. unfold lastof, freshof. rewrite nth_alter, (proj2 (Nat.eqb_neq y x) N). split; reflexivity.
Qed.
Lemma items_plain h x : plain h -> linked h -> tidy h -> x < length h -> exists vs, items h x = Ok vs /\ existsb (fun kv => is_sub (snd kv)) vs = false.
Proof.
  intros P L T X. destruct (items_spec h x L T X) as (vs & E & _ & I). exists vs. split; [exact E|].
  destruct (existsb (fun kv => is_sub (snd kv)) vs) eqn:B; [exfalso|reflexivity]. apply existsb_exists in B. destruct B as ([k v] & J & F).
  cbn in F. destruct v; [discriminate|]. apply I in J. clear -J P.
  remember Sub as v eqn:Ev. revert Ev. induction J as [x c k v E I|x c p k v E N U S IH]; intros Ev; [subst; exact (P x c k E I) | exact (IH Ev)].
Qed.

Lemma reset_rec_spec r n : forall h x l, plain h -> linked h -> tidy h -> chain h x l -> length h < n + length l ->
  exists h', reset_rec n false r h x = Ok h' /\ marks h h' (fun y => y = x \/ r = true /\ at_or_below h x y).
Proof.
  induction n as [|n IH]; intros h x l P L T C B.
  - pose proof (chain_length _ _ _ C). lia.
  - pose proof (chain_lt _ _ _ C) as X. cbn [reset_rec]. destruct (marks_one h x P L X) as (h1 & E1 & M1). rewrite E1. cbn [bind].
    pose proof (marks_tidy _ _ _ M1 T) as T1. pose proof (marks_plain _ _ _ M1 P) as P1. assert (SL : same_links h h1) by apply M1.
    pose proof (same_links_linked _ _ SL L) as L1.
    destruct (items_plain h1 x P1 L1 T1) as (vs & Ev & Nv); [rewrite (same_links_length _ _ SL); exact X|]. rewrite Ev. cbn [bind]. rewrite Nv.
    destruct r.
    + rewrite (same_links_children _ _ _ SL).
      assert (F : forall cs g, (forall c, In c cs -> In c (children h x)) -> same_links h g -> tidy g -> plain g ->
        exists g', foldM (fun h c => reset_rec n false true h c) g cs = Ok g' /\ marks g g' (fun y => exists c, In c cs /\ at_or_below h c y)).
      { induction cs as [|c cs IHc]; intros g Hc Sg Tg Pg; cbn [foldM].
        - exists g. split; [reflexivity|]. split; [apply same_links_refl|]. split; [reflexivity|]. split; [intros y (c & [] & _) | intros; split; reflexivity].
        - assert (Pc : parent h c = Some x) by (apply (parent_In_children _ _ _ L); apply Hc; left; reflexivity).
          assert (Lc : c < length h). { destruct (Nat.lt_ge_cases c (length h)) as [Y|Y]; [exact Y|]. rewrite (parent_out h c Y) in Pc. discriminate. }
          assert (Cc : chain g c (c :: l)) by (apply (same_links_chain h); [exact Sg | exact (chain_step h c x l Lc Pc C)]).
          pose proof (same_links_linked _ _ Sg L) as Lg.
          destruct (IH g c (c :: l) Pg Lg Tg Cc) as (g1 & Eg & D).
          { rewrite (same_links_length _ _ Sg). cbn [length]. lia. }
          rewrite Eg. cbn [bind]. assert (S1 : same_links g g1) by apply D. pose proof (marks_tidy _ _ _ D Tg) as Tg1. pose proof (marks_plain _ _ _ D Pg) as Pg1.
          destruct (IHc g1) as (g2 & E2 & D2); [intros d I; apply Hc; right; exact I | exact (same_links_trans _ _ _ Sg S1) | exact Tg1 | exact Pg1|].
          exists g2. split; [exact E2|].
          assert (Q : marks g g1 (fun y => at_or_below h c y)).
          { apply (marks_ext _ _ _ _) with (2 := D). intros y. split.
            - intros [-> | [_ H]]; [exists (c :: l); split; [exact (chain_step h c x l Lc Pc C) | left; reflexivity] | exact (same_links_below _ _ _ _ (same_links_sym _ _ Sg) H)].
            - intros H. right. split; [reflexivity | exact (same_links_below _ _ _ _ Sg H)]. }
          assert (dec : forall ds y, (exists d, In d ds /\ at_or_below h d y) \/ ~ (exists d, In d ds /\ at_or_below h d y)).
          { intros ds y. induction ds as [|d ds IHd].
            - right. intros (d & [] & _).
            - destruct (below_dec h d y L) as [H|H]; [left; exists d; split; [left; reflexivity | exact H]|].
              destruct IHd as [(e & I & He)|N]; [left; exists e; split; [right; exact I | exact He]|].
              right. intros (e & [<- | I] & He); [contradiction | apply N; exists e; split; assumption]. }
          apply (marks_ext _ _ (fun y => at_or_below h c y \/ exists d, In d cs /\ at_or_below h d y)).
          + intros y. split.
            * intros [H | (d & I & H)]; [exists c; split; [left; reflexivity | exact H] | exists d; split; [right; exact I | exact H]].
            * intros (d & [<- | I] & H); [left; exact H | right; exists d; split; assumption].
          + apply (marks_trans _ g1); [exact Lg | intros y; exact (below_dec h c y L) | intros y; apply dec | | exact Q | exact D2].
            intros y (d & _ & m & Cm & _). rewrite (same_links_length _ _ Sg). exact (chain_lt _ _ _ Cm). }
      destruct (F (children h x) h1) as (h2 & E2 & D2); [tauto | exact SL | exact T1 | exact P1|]. exists h2. split; [exact E2|].
      apply (marks_ext _ _ (fun y => y = x \/ exists c, In c (children h x) /\ at_or_below h c y)).
      * intros y. rewrite <- (below_children h x y L). split.
        -- intros [-> | [H N]]; [left; reflexivity | right; split; [reflexivity | exact H]].
        -- intros [-> | [_ H]]; [left; reflexivity|]. destruct (Nat.eq_dec y x) as [->|N]; [left; reflexivity | right; split; assumption].
      * apply (marks_trans _ h1); [exact L | intros y; destruct (Nat.eq_dec y x); [left | right]; assumption | | | exact M1 | exact D2].
        -- intros y. rewrite <- (below_children h x y L). destruct (below_dec h x y L) as [H|H]; [|right; tauto]. destruct (Nat.eq_dec y x); [right; tauto | left; tauto].
        -- intros y (d & _ & m & Cm & _). exact (chain_lt _ _ _ Cm).
    + exists h1. split; [reflexivity|]. apply (marks_ext _ _ (fun y => y = x)); [|exact M1]. intros y. split; [tauto|]. intros [H | [H _]]; [exact H | discriminate].
Qed.

Lemma like_refl h l : Forall2 (like h h) l l.
Proof. induction l as [|y l IH]; constructor; [intros k; reflexivity | exact IH]. Qed.

Lemma reset_spec h x r : plain h -> linked h -> tidy h -> x < length h ->
  exists h', reset_state h x false r = Ok h' /\ linked h' /\ tidy h' /\ plain h' /\ (forall y l, chain h y l <-> chain h' y l) /\ (forall y k v, sees h' y k v <-> sees h y k v) /\
    (forall y, y = x \/ r = true /\ at_or_below h x y -> changed h' y = Ok false) /\
    (forall y, y < length h -> ~ (y = x \/ r = true /\ at_or_below h x y) -> changed h' y = changed h y).
Proof.
  intros P L T X. destruct (linked_chain h x L X) as [l C].
  destruct (reset_rec_spec r (length h) h x l P L T C) as (h' & E & M); [destruct (chain_head _ _ _ C) as [t ->]; cbn [length]; lia|].
  pose proof M as (S & D & A & N). pose proof (marks_tidy _ _ _ M T) as T'. pose proof (marks_plain _ _ _ M P) as P'. pose proof (same_links_linked _ _ S L) as L'.
  assert (Lk : Forall2 (like h h') = Forall2 (like h h') ) by reflexivity.
  exists h'. split; [exact E|]. split; [exact L'|]. split; [exact T'|]. split; [exact P'|].
  split; [intros y m; split; apply same_links_chain; [exact S | exact (same_links_sym _ _ S)]|]. split; [|split].
  - intros y k v. split; intros Sv.
    + pose proof (sees_lt _ _ _ _ Sv) as Y. destruct (linked_chain h' y L' Y) as [m Cm]. pose proof (same_links_chain _ _ _ _ (same_links_sym _ _ S) Cm) as Cm0.
      apply (sees_ext h h' y k m v T T' Cm0 Cm); [intros z _; rewrite D; reflexivity | exact Sv].
    + pose proof (sees_lt _ _ _ _ Sv) as Y. destruct (linked_chain h y L Y) as [m Cm]. pose proof (same_links_chain _ _ _ _ S Cm) as Cm'.
      apply (sees_ext h h' y k m v T T' Cm Cm'); [intros z _; rewrite D; reflexivity | exact Sv].
  - intros y H. destruct (A y H) as (s & Es & Ls & _).
    assert (Y : y < length h) by (destruct H as [-> | [_ (m & Cm & _)]]; [exact X | exact (chain_lt _ _ _ Cm)]).
    destruct (linked_chain h y L Y) as [m Cm]. pose proof (same_links_chain _ _ _ _ S Cm) as Cm'.
    destruct (changed_spec h h' y m m s P P' T T' Cm Cm' Es Ls) as (b & Eb & Hb). rewrite Eb. f_equal. apply Hb.
    clear -D. induction m as [|z m IH]; constructor; [intros k; rewrite D; reflexivity | exact IH].
  - intros y Y H. unfold changed. rewrite (snapshot_same h h' y S D L Y). pose proof (proj1 (N y H)) as Q. unfold lastof in Q. rewrite Q. reflexivity.
Qed.

(* the marks of the keys are removed, and only at the nodes that are reset *)
Lemma reset_marks h x r : plain h -> linked h -> tidy h -> x < length h ->
  exists h', reset_state h x false r = Ok h' /\ length h' = length h /\
    forall y c c', nth_error h y = Some c -> nth_error h' y = Some c' -> (y = x \/ r = true /\ at_or_below h x y -> fresh c' = []) /\ (~ (y = x \/ r = true /\ at_or_below h x y) -> fresh c' = fresh c).
Proof.
  intros P L T X. destruct (linked_chain h x L X) as [l C].
  destruct (reset_rec_spec r (length h) h x l P L T C) as (h' & E & S & _ & A & N); [destruct (chain_head _ _ _ C) as [t ->]; cbn [length]; lia|].
  exists h'. split; [exact E|]. split; [exact (same_links_length _ _ S)|]. intros y c c' Ey Ey'. split; intro H.
  - destruct (A y H) as (_ & _ & _ & F). unfold freshof in F. rewrite Ey' in F. exact F.
  - destruct (N y H) as [_ F]. unfold freshof in F. rewrite Ey, Ey' in F. exact F.
Qed.

(* the state that was recorded decides whether a node is changed *)
Lemma reset_changed h h2 y h1 l l2 : plain h -> linked h -> tidy h -> plain h2 -> tidy h2 -> reset_state h y false false = Ok h1 -> chain h y l -> chain h2 y l2 ->
  (exists c1 c2, nth_error h1 y = Some c1 /\ nth_error h2 y = Some c2 /\ last c2 = last c1) ->
  exists b, changed h2 y = Ok b /\ (b = false <-> Forall2 (fun a b => forall k v, (exists c, nth_error h a = Some c /\ In (k, v) (data c)) <-> (exists c, nth_error h2 b = Some c /\ In (k, v) (data c))) l l2).
Proof.
  intros P L T P2 T2 R C C2 (c1 & c2 & E1 & E2 & La).
  destruct (reset_rec_spec false (length h) h y l P L T C) as (h1' & E & S & D & A & N); [destruct (chain_head _ _ _ C) as [t ->]; cbn [length]; lia|].
  unfold reset_state in R. rewrite R in E. injection E as <-. destruct (A y (or_introl eq_refl)) as (s & Es & Ls & _).
  assert (L2 : lastof h2 y = Some s). { unfold lastof in *. rewrite E1 in Ls. rewrite E2. congruence. }
  destruct (changed_spec h h2 y l l2 s P P2 T T2 C C2 Es L2) as (b & Eb & Hb). exists b. split; [exact Eb|]. rewrite Hb.
  assert (Q : forall g a k v, tidy g -> ((exists c, nth_error g a = Some c /\ In (k, v) (data c)) <-> look k (local_map g a) = Some v)).
  { intros g a k v Tg. unfold local_map. destruct (nth_error g a) as [c|] eqn:Ec.
    - split; [intros (c' & F & I); injection F as <-; exact (In_lookup Nat.eqb nat_deq k v (data c) (Tg a c Ec) I)|].
      intros F. exists c. split; [reflexivity | exact (lookup_Some_In Nat.eqb nat_deq _ _ _ F)].
    - split; [intros (c' & F & _); discriminate | discriminate]. }
  clear -Q T T2. split; intros F.
  - induction F as [|a b' la lb H F IH]; [apply Forall2_nil|]. apply Forall2_cons; [|exact IH].
    intros k v. rewrite (Q h a k v T), (Q h2 b' k v T2), (H k). reflexivity.
  - induction F as [|a b' la lb H F IH]; [apply Forall2_nil|]. apply Forall2_cons; [|exact IH].
    intros k. specialize (H k). destruct (look k (local_map h a)) as [v|] eqn:V.
    + symmetry. apply (Q h2 b' k v T2). apply H. apply (Q h a k v T). exact V.
    + destruct (look k (local_map h2 b')) as [w|] eqn:W; [|reflexivity]. exfalso. apply (Q h2 b' k w T2) in W. apply H in W. apply (Q h a k w T) in W. congruence.
Qed.
Lemma reset_values h h2 y h1 k v : plain h -> linked h -> tidy h -> plain h2 -> linked h2 -> tidy h2 -> reset_state h y false false = Ok h1 ->
  (exists c1 c2, nth_error h1 y = Some c1 /\ nth_error h2 y = Some c2 /\ last c2 = last c1) -> changed h2 y = Ok false -> (sees h2 y k v <-> sees h y k v).
Proof.
  intros P L T P2 L2 T2 R (c1 & c2 & E1 & E2 & La) Ch.
  assert (Y2 : y < length h2) by (apply nth_error_Some; congruence).
  assert (Y : y < length h).
  { destruct (Nat.lt_ge_cases y (length h)) as [Y|Y]; [exact Y|exfalso]. unfold reset_state in R. destruct (length h) as [|n] eqn:Ln.
    - cbn in R. discriminate.
    - cbn [reset_rec] in R. unfold set_changed in R. destruct (snapshot h y) as [s|e]; cbn [bind] in R; [|discriminate].
      set (g := alter h y _) in R. destruct (items g y) as [vs|e]; cbn [bind] in R; [|discriminate].
      destruct (existsb (fun kv => is_sub (snd kv)) vs); [discriminate|]. injection R as <-. unfold g in E1. rewrite nth_alter, Nat.eqb_refl in E1.
      rewrite (proj2 (nth_error_None h y)) in E1 by lia. discriminate. }
  destruct (linked_chain h y L Y) as [l C]. destruct (linked_chain h2 y L2 Y2) as [l2 C2].
  destruct (reset_rec_spec false (length h) h y l P L T C) as (h1' & E & S & D & A & N); [destruct (chain_head _ _ _ C) as [t ->]; cbn [length]; lia|].
  unfold reset_state in R. rewrite R in E. injection E as <-. destruct (A y (or_introl eq_refl)) as (s & Es & Ls & _).
  assert (L3 : lastof h2 y = Some s). { unfold lastof in *. rewrite E1 in Ls. rewrite E2. congruence. }
  destruct (changed_spec h h2 y l l2 s P P2 T T2 C C2 Es L3) as (b & Eb & Hb). rewrite Ch in Eb. injection Eb as <-. pose proof (proj1 Hb eq_refl) as F.
  rewrite (sees_first h y l k v T C), (sees_first h2 y l2 k v T2 C2).
  assert (G : first_map k (map (local_map h) l) = first_map k (map (local_map h2) l2)).
  { clear -F. induction F as [|a b la lb H F IH]; cbn [map first_map]; [reflexivity|]. rewrite (H k), IH. reflexivity. }
  rewrite G. reflexivity.
Qed.

(* one assignment *)
Lemma set_changed_iff h x k z y h' r : plain h -> linked h -> tidy h -> x < length h -> changed h y = Ok false -> y < length h -> setitem h x k (GPlain z) = (h', r) ->
  exists b, changed h' y = Ok b /\ (b = true <-> at_or_below h x y /\ ~ sees h x k (Plain z)).
Proof.
  intros P L T X Ch Y E.
  assert (NS : ~ sees h x k Sub).
  { intros S. remember Sub as v eqn:Ev. revert Ev. clear -S P. induction S as [x c k v E I|x c p k v E N U S IH]; intros Ev; [subst; exact (P x c k E I) | exact (IH Ev)]. }
  destruct (setitem_plain h x k z L T X NS) as (g & Eg & [[-> S]|[-> S]]); rewrite E in Eg; injection Eg as -> ->.
  - exists false. split; [exact Ch|]. split; [discriminate | tauto].
  - set (g := store h x k (Plain z)). assert (SL : same_links h g) by apply same_links_store.
    assert (T' : tidy g) by (apply tidy_store; exact T).
    assert (LS : forall w, local_map g w = if Nat.eqb w x then assign Nat.eqb k (Plain z) (local_map h x) else local_map h w) by (intros w; apply local_store; exact X).
    assert (P' : plain g).
    { intros w c j Ec I. pose proof (local_nth g w c Ec) as F. rewrite <- F, LS in I. destruct (Nat.eqb w x); [|exact (plain_local h w j P I)].
      assert (Nk : NoDup (keys (assign Nat.eqb k (Plain z) (local_map h x)))) by (apply (NoDup_keys_assign Nat.eqb nat_deq); apply tidy_local; exact T).
      apply (In_lookup Nat.eqb nat_deq j Sub _ Nk) in I. rewrite look_assign in I. destruct (Nat.eqb j k); [discriminate|].
      exact (plain_look h x j P I). }
    destruct (linked_chain h y L Y) as [l C]. pose proof (same_links_chain _ _ _ _ SL C) as C'.
    destruct (snapshot_spec h y l P C) as (s & Es & Fs). destruct (snapshot_spec g y l P' C') as (s' & Es' & Fs').
    assert (Ch2 := Ch). unfold changed in Ch2. rewrite Es in Ch2. cbn [bind] in Ch2. fold (lastof h y) in Ch2.
    destruct (lastof h y) as [t|] eqn:Lt; [|discriminate]. injection Ch2 as Ch2. apply negb_false_iff in Ch2.
    assert (Lg : lastof g y = Some t) by (unfold g; rewrite lastof_store; exact Lt).
    unfold changed. rewrite Es'. cbn [bind]. fold (lastof g y). rewrite Lg. eexists. split; [reflexivity|]. rewrite negb_true_iff. split.
    + intros B. split; [|exact S]. destruct (below_dec h x y L) as [H|H]; [exact H|exfalso].
      assert (Es2 : snapshot g y = snapshot h y).
      { unfold snapshot. rewrite (maps_chain _ _ _ C), (maps_chain _ _ _ C'). cbn [bind]. f_equal. apply map_ext_in. intros w I. rewrite LS.
        destruct (Nat.eqb w x) eqn:W; [|reflexivity]. apply Nat.eqb_eq in W. subst. exfalso. apply H. exists l. split; assumption. }
      rewrite Es, Es' in Es2. injection Es2 as ->. congruence.
    + intros [(m & Cm & I) _]. rewrite (chain_fun _ _ _ _ Cm C) in I. destruct (same_maps s' t) eqn:B; [exfalso|reflexivity].
      assert (Sx : look k (local_map h x) <> Some (Plain z)).
      { intros Q. apply S. apply (lookup_Some_In Nat.eqb nat_deq) in Q. unfold local_map in Q. destruct (nth_error h x) as [c|] eqn:Ec; [|destruct Q].
        apply (Sees_own h x c); assumption. }
      apply same_maps_spec in Ch2, B. clear -Ch2 B Fs Fs' I LS Sx P. revert s s' t Fs Fs' Ch2 B. induction l as [|w l IH]; intros s s' t Fs Fs' A B; [destruct I|].
      inversion Fs as [|? m ? s0 [K Lm] F0]; subst. inversion Fs' as [|? m' ? s0' [K' Lm'] F0']; subst.
      inversion A as [|? n ? t0 A1 A2]; subst. inversion B as [|? n' ? t0' B1 B2]; subst.
      destruct I as [-> | I]; [|exact (IH I s0 s0' t0 F0 F0' A2 B2)].
      pose proof (Lm' k) as Q. rewrite LS, Nat.eqb_refl, look_assign, Nat.eqb_refl in Q. cbn [as_plain] in Q. pose proof (same_map_look _ _ _ _ B1 Q) as Q2.
      pose proof (Lm k) as R. destruct (look k (local_map h x)) as [[u|]|] eqn:U; cbn [as_plain] in R.
      * pose proof (same_map_look _ _ _ _ A1 R). congruence.
      * exact (plain_look h x k P U).
      * pose proof (same_map_len _ _ A1) as N1. pose proof (same_map_len _ _ B1) as N2.
        assert (N3 : length m' = S (length m)).
        { rewrite <- (map_length fst m'), <- (map_length fst m). change (length (keys m') = S (length (keys m))). rewrite K, K', LS, Nat.eqb_refl.
          apply (lookup_None Nat.eqb nat_deq) in U. rewrite (keys_assign_notin Nat.eqb nat_deq k (Plain z) _ U). unfold keys. rewrite map_app, app_length. apply Nat.add_1_r. }
        lia.
Qed.

(* ---- annotated keys ---- *)
Lemma ua_fst l : forall seen, map fst (unique_annotated seen l) = unique_everseen seen (map fst l).
Proof.
  induction l as [|a l IH]; intros seen; cbn [unique_annotated unique_everseen map]; [reflexivity|].
  destruct (existsb (Nat.eqb (fst a)) seen); [apply IH|]. cbn [map]. f_equal. apply IH.
Qed.
Lemma ua_first l a : forall seen, In a (unique_annotated seen l) -> exists l1 l2, l = l1 ++ a :: l2 /\ ~ In (fst a) (map fst l1) /\ ~ In (fst a) seen.
Proof.
  induction l as [|b l IH]; intros seen; cbn [unique_annotated]; [intros []|].
  destruct (existsb (Nat.eqb (fst b)) seen) eqn:E.
  - intros I. destruct (IH seen I) as (l1 & l2 & -> & N1 & N2). exists (b :: l1), l2. split; [reflexivity|]. split; [|exact N2].
    cbn [map]. intros [F | F]; [apply N2; rewrite <- F; apply existsb_In; exact E | contradiction].
  - intros [<- | I].
    + exists [], l. split; [reflexivity|]. split; [intros [] | apply existsb_notIn; exact E].
    + destruct (IH _ I) as (l1 & l2 & -> & N1 & N2). exists (b :: l1), l2. split; [reflexivity|]. split.
      * cbn [map]. intros [F | F]; [apply N2; left; exact F | contradiction].
      * intros F. apply N2. right. exact F.
Qed.
Lemma annotate_fst h b y : map fst (annotate h b y) = keys (local_map h y).
Proof. unfold annotate, local_map. destruct (nth_error h y) as [c|]; [|reflexivity]. unfold keys. rewrite map_map. reflexivity. Qed.
Lemma annotate_flag h b y a : In a (annotate h b y) -> fst (snd a) = b.
Proof. unfold annotate. destruct (nth_error h y) as [c|]; [|intros []]. rewrite in_map_iff. intros (kv & <- & _). reflexivity. Qed.

Lemma annotated_spec h x : linked h -> tidy h -> x < length h ->
  exists l ks, annotated_keys h x = Ok l /\ iter_keys h x true = Ok ks /\ map fst l = ks /\ forall k b f, In (k, (b, f)) l -> (b = true <-> owns h x k).
Proof.
  intros L T X. destruct (linked_chain h x L X) as [l C]. unfold annotated_keys, iter_keys. rewrite (iter_up_chain _ _ _ C), (maps_chain _ _ _ C). cbn [bind].
  eexists _, _. split; [reflexivity|]. split; [reflexivity|]. destruct (chain_head _ _ _ C) as [t ->]. split.
  - rewrite ua_fst. f_equal. cbn [map concat]. rewrite map_app, annotate_fst. f_equal. rewrite concat_map, map_map, map_map.
    f_equal. apply map_ext. intros y. apply annotate_fst.
  - intros k b f I. destruct (ua_first _ _ _ I) as (l1 & l2 & E & N & _). cbn [concat] in E. cbn [fst] in N.
    assert (O : owns h x k <-> In k (map fst (annotate h true x))).
    { rewrite annotate_fst, owns_look. rewrite <- (mem_true Nat.eqb nat_deq). unfold mem. destruct (look k (local_map h x)); split; congruence. }
    rewrite O. assert (Ia : In (k, (b, f)) (annotate h true x ++ concat (map (annotate h false) t))) by (rewrite E; apply in_or_app; right; left; reflexivity).
    apply in_app_or in Ia. split.
    + intros ->. destruct Ia as [Ia | Ia]; [apply (in_map fst) in Ia; exact Ia|]. exfalso. apply in_concat in Ia. destruct Ia as (m & Im & Ia).
      apply in_map_iff in Im. destruct Im as (y & <- & _). apply annotate_flag in Ia. discriminate.
    + intros J. assert (K : In (k, (b, f)) (annotate h true x)); [|exact (annotate_flag _ _ _ _ K)].
      revert E N J. clear. generalize (annotate h true x) as A. generalize (concat (map (annotate h false) t)) as B. intros B A. revert l1.
      induction A as [|a A IH]; intros l1 E N J; [destruct J|]. destruct l1 as [|c l1]; cbn [app] in E.
      * injection E as -> _. left. reflexivity.
      * injection E as -> E. right. apply (IH l1 E).
        -- intros F. apply N. right. exact F.
        -- cbn [map] in J. destruct J as [J | J]; [exfalso; apply N; left; exact J | exact J].
Qed.
