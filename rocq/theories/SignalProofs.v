From Verif Require Import SignalSpec.

Lemma sig_eqb_spec a b : sig_eqb a b = true <-> a = b.
Proof. destruct a, b; cbn; split; congruence. Qed.
Lemma existsb_sig s l : existsb (sig_eqb s) l = true <-> In s l.
Proof.
  rewrite existsb_exists. split.
  - intros (x & I & E). apply sig_eqb_spec in E as ->. exact I.
  - intros I. exists s. split; [exact I|now apply sig_eqb_spec].
Qed.
Lemma only_tl env : only_in_body env -> only_in_body (tl env).
Proof. destruct env; [trivial|]. now inversion 1. Qed.

Definition quiet (q : place -> step) : Prop :=
  forall a w, a <> InBody -> only_in_body (w_env w) -> q a w = (set_env (tl (w_env w)) w, Go).
Lemma set_env_same w : set_env (w_env w) w = w.
Proof. now destruct w. Qed.
Lemma poll_n_quiet p n : quiet (poll_n p n).
Proof.
  intros a w A H. assert (P : pop a w = (None, set_env (tl (w_env w)) w)).
  { unfold pop. destruct (w_env w) as [|f r] eqn:E; [cbn; rewrite <- E at 1; now rewrite set_env_same|].
    inversion H as [|? ? Hf _]; subst. now rewrite Hf. }
  destruct n; cbn [poll_n]; rewrite P; reflexivity.
Qed.
Lemma poll_quiet p : quiet (poll p).
Proof. intros a w A H. unfold poll. now apply poll_n_quiet. Qed.

Definition same_rest (w w' : world) : Prop :=
  w_old w' = w_old w /\ w_need w' = w_need w /\ w_downs w' = w_downs w /\ w_ret w' = w_ret w.

Lemma restore_quiet q l : quiet q -> forall w, only_in_body (w_env w) ->
  exists w', restore q l w = (w', Go) /\ only_in_body (w_env w') /\ same_rest w w' /\
             (forall s, w_new w' s = if existsb (sig_eqb s) l then false else w_new w s).
Proof.
  intros Q. induction l as [|s l IH]; intros w H.
  - exists w. repeat split; assumption || reflexivity.
  - cbn [restore]. unfold seqM at 1, upd. unfold seqM at 1.
    rewrite (Q InRestore _ ltac:(discriminate)) by exact H.
    destruct (IH (set_env (tl (w_env (set_new s false w))) (set_new s false w))) as (w' & E & O & S & N).
    { cbn. now apply only_tl. }
    exists w'. split; [exact E|]. split; [exact O|]. split; [exact S|].
    intros t. rewrite N. cbn [existsb w_new set_env set_new].
    destruct (existsb (sig_eqb t) l); [now rewrite orb_true_r|]. rewrite orb_false_r.
    destruct (sig_eqb s t) eqn:A.
    + apply sig_eqb_spec in A as ->. now destruct t.
    + destruct (sig_eqb t s) eqn:B; [|reflexivity]. apply sig_eqb_spec in B as ->. now destruct s.
Qed.

Lemma cleanup_quiet p q l w : quiet q -> (forall k, p_teardown p k = None) ->
  only_in_body (w_env w) -> w_need w = true -> w_old w = Some l ->
  exists w', cleanup p q w = (w', Go) /\ only_in_body (w_env w') /\ w_old w' = Some l /\ w_need w' = false /\
             w_downs w' = S (w_downs w) /\ w_ret w' = p_truthy p /\
             (forall s, w_new w' s = if existsb (sig_eqb s) l then false else w_new w s).
Proof.
  intros Q T H N O. unfold cleanup. rewrite N. unfold teardown, seqM, upd, raise_opt.
  rewrite (Q InTeardown (count_down w)) by (discriminate || exact H). rewrite T.
  cbn [set_ret set_env count_down w_old w_env]. rewrite O.
  set (w1 := set_ret _ _).
  destruct (restore_quiet q l Q w1) as (w' & E & O' & S & Nw).
  { cbn. now apply only_tl. }
  rewrite E. exists (set_need false w'). destruct S as (S1 & S2 & S3 & S4).
  split; [reflexivity|]. split; [exact O'|]. split; [cbn; now rewrite S1|]. split; [reflexivity|].
  split; [cbn; now rewrite S3|]. split; [cbn; now rewrite S4|]. exact Nw.
Qed.

Section Once.
Context (p : params) (l : list sig) (T : forall k, p_teardown p k = None).

Definition inv (w : world) : Prop :=
  only_in_body (w_env w) /\ w_old w = Some l /\
  ((w_need w = true /\ w_downs w = 0%nat /\ forall s, w_new w s = existsb (sig_eqb s) l) \/
   (w_need w = false /\ w_downs w = 1%nat /\ restored w)).
Definition post (r : world * outcome) : Prop :=
  inv (fst r) /\ (snd r = Killed -> w_need (fst r) = false \/ exists s, ~ In s l).

Lemma inv_env w : inv w -> inv (set_env (tl (w_env w)) w).
Proof. intros (A & B & C). split; [now apply only_tl|]. now split. Qed.

Lemma seq_post a b w : post (a w) -> (forall w', inv w' -> post (b w')) -> post (seqM a b w).
Proof.
  unfold seqM. destruct (a w) as [w' o]. intros [A B] H. destruct o; [now apply H| |]; now split.
Qed.
Lemma cleanup_post q w : quiet q -> inv w -> post (cleanup p q w).
Proof.
  intros Q (A & B & [(C1 & C2 & C3) | (C1 & C2 & C3)]).
  - destruct (cleanup_quiet p q l w Q T A C1 B) as (w' & E & O & Ol & Nd & Dn & _ & Nw). rewrite E.
    split; [|discriminate]. split; [exact O|]. split; [exact Ol|]. right. split; [exact Nd|].
    split; [cbn [fst]; now rewrite Dn, C2|]. intros s. cbn [fst]. rewrite Nw, C3. now destruct (existsb (sig_eqb s) l).
  - unfold cleanup. rewrite C1. split; [|discriminate]. split; [exact A|]. split; [exact B|]. right. now repeat split.
Qed.
Lemma deliver_post q s w : quiet q -> inv w -> post (deliver p q s w).
Proof.
  intros Q I. unfold deliver. destruct (w_new w s) eqn:N.
  - unfold newhandler. apply seq_post.
    + rewrite (Q InHandler w) by (discriminate || apply I). split; [now apply inv_env|discriminate].
    + intros w' I'. apply seq_post; [now apply cleanup_post|]. clear w' I'. intros w' I'.
      destruct (p_resend p); [|split; [exact I'|discriminate]].
      unfold send. destruct I' as (A & B & C). rewrite B.
      destruct (existsb (sig_eqb s) l); [|split; [now split|discriminate]].
      destruct (p_orig p s) as [| |[e|]]; [| |destruct e|]; (split; [now split|discriminate]).
  - destruct (p_orig p s) as [| |r] eqn:D.
    + split; [exact I|]. intros _. cbn [fst]. destruct I as (A & B & [(C1 & C2 & C3) | (C1 & _)]); [right|now left].
      exists s. intros F. apply existsb_sig in F. rewrite C3 in N. congruence.
    + split; [exact I|discriminate].
    + destruct r; (split; [exact I|discriminate]).
Qed.
Lemma poll_n_post n : forall a w, inv w -> post (poll_n p n a w).
Proof.
  induction n as [|n IH]; intros a w I; cbn [poll_n]; unfold pop.
  - destruct (w_env w) as [|f r] eqn:E; [split; [exact I|discriminate]|].
    assert (J : inv (set_env r w)) by (pose proof (inv_env w I) as J; now rewrite E in J).
    destruct (f a); (split; [exact J|discriminate]).
  - destruct (w_env w) as [|f r] eqn:E; [split; [exact I|discriminate]|].
    assert (J : inv (set_env r w)) by (pose proof (inv_env w I) as J; now rewrite E in J).
    destruct (f a) as [s|]; [|split; [exact J|discriminate]].
    apply seq_post; [|exact (IH a)]. apply deliver_post; [apply poll_n_quiet|exact J].
Qed.
Lemma body_post n r : forall w, inv w -> post (body p n r w).
Proof.
  induction n as [|n IH]; intros w I; cbn [body].
  - unfold raise_opt. destruct r; (split; [exact I|discriminate]).
  - apply seq_post; [now apply poll_n_post|exact IH].
Qed.
End Once.

Lemma replace_quiet p : forall sl acc w, only_in_body (w_env w) ->
  exists w', replace p sl acc w = (w', Go) /\ only_in_body (w_env w') /\
    w_old w' = Some (rev acc ++ filter (p_settable p) sl) /\ w_need w' = w_need w /\ w_downs w' = w_downs w /\
    (forall s, w_new w' s = existsb (sig_eqb s) (filter (p_settable p) sl) || w_new w s).
Proof.
  induction sl as [|s sl IH]; intros acc w H; cbn [replace filter].
  - eexists. split; [reflexivity|]. cbn. rewrite app_nil_r. now repeat split.
  - destruct (p_settable p s) eqn:S.
    + unfold seqM, upd. rewrite (poll_quiet p InEnter (set_new s true w)) by (discriminate || exact H).
      destruct (IH (s :: acc) (set_env (tl (w_env w)) (set_new s true w))) as (w' & E & O & Ol & Nd & Dn & Nw).
      { cbn. now apply only_tl. }
      exists w'. split; [exact E|]. split; [exact O|]. split; [rewrite Ol; cbn [rev]; now rewrite <- app_assoc|].
      split; [exact Nd|]. split; [exact Dn|]. intros t. rewrite Nw. cbn [existsb w_new set_env set_new].
      destruct (sig_eqb s t) eqn:A.
      * apply sig_eqb_spec in A as ->. destruct t; cbn; now rewrite orb_true_r.
      * destruct (sig_eqb t s) eqn:B; [apply sig_eqb_spec in B as ->; now destruct s|]. now rewrite orb_false_l.
    + unfold seqM. rewrite (poll_quiet p InEnter w) by (discriminate || exact H).
      destruct (IH acc (set_env (tl (w_env w)) w)) as (w' & E & O & Ol & Nd & Dn & Nw).
      { cbn. now apply only_tl. }
      exists w'. now repeat split.
Qed.
Lemma enter_quiet p env : only_in_body env ->
  exists w', enter p (start env) = (w', match p_setup p with Some e => Raised e | None => Go end) /\
    only_in_body (w_env w') /\ w_old w' = Some (filter (p_settable p) (p_sigs p)) /\
    w_need w' = true /\ w_downs w' = 0%nat /\
    (forall s, w_new w' s = existsb (sig_eqb s) (filter (p_settable p) (p_sigs p))).
Proof.
  intros H. unfold enter, seqM, upd.
  rewrite (poll_quiet p InEnter (set_need true (start env))) by (discriminate || exact H).
  destruct (replace_quiet p (p_sigs p) [] (set_env (tl (w_env (set_need true (start env)))) (set_need true (start env))))
    as (w' & E & O & Ol & Nd & Dn & Nw).
  { cbn. now apply only_tl. }
  rewrite E, (poll_quiet p InSetup w') by (discriminate || exact O). unfold raise_opt.
  eexists. split; [reflexivity|]. cbn [w_env set_env w_old w_need w_downs w_new]. cbn in Ol, Nd, Dn.
  split; [now apply only_tl|]. split; [exact Ol|]. split; [exact Nd|]. split; [exact Dn|].
  intros s. rewrite Nw. cbn. apply orb_false_r.
Qed.

Lemma run_once p env n r : well_behaved p -> only_in_body env ->
  let '(w, o) := run p n r (start env) in
  (o <> Killed \/ (forall s, In s (p_sigs p) /\ p_settable p s = true)) ->
  w_downs w = 1%nat /\ restored w.
Proof.
  intros [S T] H. unfold run.
  destruct (enter_quiet p env H) as (w0 & E & O & Ol & Nd & Dn & Nw). rewrite S in E. rewrite E.
  set (l := filter (p_settable p) (p_sigs p)) in *.
  assert (I : inv l w0) by (split; [exact O|]; split; [exact Ol|]; left; now repeat split).
  pose proof (body_post p l T n r w0 I) as [I1 K1].
  destruct (body p n r w0) as [w1 o1]. cbn [fst snd] in I1, K1.
  assert (Fin : forall w, w_need w = false -> inv l w -> w_downs w = 1%nat /\ restored w).
  { intros w Hn (_ & _ & [(C & _) | (_ & C)]); [congruence|exact C]. }
  assert (CC : forall w', inv l w' -> w_need (fst (cleanup p (poll p) w')) = false).
  { intros w' (A & B & [(C1 & C2 & C3) | (C1 & C2 & C3)]).
    - destruct (cleanup_quiet p (poll p) l w' (poll_quiet p) T A C1 B) as (w2 & E2 & _ & _ & Q & _). now rewrite E2.
    - unfold cleanup. rewrite C1. exact C1. }
  pose proof (cleanup_post p l T (poll p) w1 (poll_quiet p) I1) as [I2 K2].
  pose proof (CC w1 I1) as N2.
  destruct o1.
  - destruct (cleanup p (poll p) w1) as [w2 o2]. cbn [fst snd] in *.
    destruct o2; intros _; now apply (Fin w2).
  - destruct (cleanup p (poll p) w1) as [w2 o2]. cbn [fst snd] in *.
    destruct o2; intros _; now apply (Fin w2).
  - intros [F|F]; [congruence|]. apply (Fin w1); [|exact I1].
    destruct (K1 eq_refl) as [K|(s & K)]; [exact K|]. exfalso. apply K. unfold l. apply filter_In. apply F.
Qed.

(* without signals: the exception of the block is suppressed iff the tear-down says so *)
Lemma no_signals_only env : no_signals env -> only_in_body env.
Proof. apply Forall_impl. auto. Qed.
Lemma body_no_signals p n r : forall w, no_signals (w_env w) ->
  exists e, no_signals e /\ body p n r w = (set_env e w, match r with Some x => Raised x | None => Go end).
Proof.
  induction n as [|n IH]; intros w H; cbn [body].
  - exists (w_env w). split; [exact H|]. now rewrite set_env_same.
  - unfold seqM, poll.
    assert (P : poll_n p (length (w_env w)) InBody w = (set_env (tl (w_env w)) w, Go)).
    { assert (P : pop InBody w = (None, set_env (tl (w_env w)) w)).
      { unfold pop. destruct (w_env w) as [|f l] eqn:E; [cbn; rewrite <- E at 1; now rewrite set_env_same|].
        inversion H as [|? ? Hf _]; subst. now rewrite Hf. }
      destruct (length (w_env w)); cbn [poll_n]; rewrite P; reflexivity. }
    rewrite P. destruct (IH (set_env (tl (w_env w)) w)) as (e & He & E).
    { cbn. destruct (w_env w); [trivial|]. now inversion H. }
    exists e. split; [exact He|exact E].
Qed.
Lemma enter_no_signals p env : no_signals env -> no_signals (w_env (fst (enter p (start env)))).
Proof.
  intros H.
  assert (G : forall a w, no_signals (w_env w) -> poll p a w = (set_env (tl (w_env w)) w, Go)).
  { intros a w Hw. unfold poll.
    assert (P : pop a w = (None, set_env (tl (w_env w)) w)).
    { unfold pop. destruct (w_env w) as [|f l] eqn:E; [cbn; rewrite <- E at 1; now rewrite set_env_same|].
      inversion Hw as [|? ? Hf _]; subst. now rewrite Hf. }
    destruct (length (w_env w)); cbn [poll_n]; rewrite P; reflexivity. }
  assert (Tl : forall e, no_signals e -> no_signals (tl e)) by (destruct e; [trivial|now inversion 1]).
  assert (R : forall sl acc w, no_signals (w_env w) ->
     exists w', replace p sl acc w = (w', Go) /\ no_signals (w_env w')).
  { induction sl as [|s sl IH]; intros acc w Hw; cbn [replace].
    - eexists. split; [reflexivity|exact Hw].
    - destruct (p_settable p s); unfold seqM, upd; (rewrite G; [|exact Hw]); apply IH; cbn; now apply Tl. }
  unfold enter, seqM, upd. rewrite G by exact H.
  destruct (R (p_sigs p) [] (set_env (tl (w_env (set_need true (start env)))) (set_need true (start env)))) as (w' & E & N).
  { cbn. now apply Tl. }
  rewrite E, G by exact N. cbn. now apply Tl.
Qed.
Lemma run_no_signals p env n r : well_behaved p -> no_signals env ->
  exists w, run p n r (start env) =
    (w, match r with Some e => if p_truthy p then Go else Raised e | None => Go end).
Proof.
  intros [S T] H. unfold run. pose proof (no_signals_only env H) as H'.
  destruct (enter_quiet p env H') as (w0 & E & O & Ol & Nd & Dn & Nw). rewrite S in E.
  pose proof (enter_no_signals p env H) as N0. rewrite E in *. cbn [fst] in N0.
  destruct (body_no_signals p n r w0 N0) as (e & He & E1). rewrite E1.
  destruct (cleanup_quiet p (poll p) (filter (p_settable p) (p_sigs p)) (set_env e w0) (poll_quiet p) T)
    as (w2 & E2 & _ & _ & _ & _ & R2 & _); try assumption.
  { cbn. now apply no_signals_only. }
  rewrite E2. destruct r; [|eexists; reflexivity]. rewrite R2. eexists. reflexivity.
Qed.

(* the cases in which the claim fails *)
Lemma setup_fails p env n r e : p_setup p = Some e -> only_in_body env ->
  exists w, run p n r (start env) = (w, Raised e) /\ w_downs w = 0%nat /\
    forall s, w_new w s = existsb (sig_eqb s) (filter (p_settable p) (p_sigs p)).
Proof.
  intros S H. unfold run. destruct (enter_quiet p env H) as (w0 & E & O & Ol & Nd & Dn & Nw).
  rewrite S in E. rewrite E. exists w0. now repeat split.
Qed.
Lemma teardown_fails p env n e : p_setup p = None -> p_teardown p 0 = Some e -> no_signals env ->
  exists w, run p n None (start env) = (w, Raised e) /\ w_downs w = 1%nat /\
    forall s, w_new w s = existsb (sig_eqb s) (filter (p_settable p) (p_sigs p)).
Proof.
  intros S T H. unfold run. pose proof (no_signals_only env H) as H'.
  destruct (enter_quiet p env H') as (w0 & E & O & Ol & Nd & Dn & Nw). rewrite S in E.
  pose proof (enter_no_signals p env H) as N0. rewrite E in *. cbn [fst] in N0.
  destruct (body_no_signals p n None w0 N0) as (e0 & He & E1). rewrite E1.
  unfold cleanup. cbn [set_env w_need]. rewrite Nd. unfold teardown at 1. unfold seqM, upd, raise_opt.
  rewrite (poll_quiet p InTeardown) by (discriminate || (cbn; now apply no_signals_only)).
  cbn [set_env w_downs]. rewrite Dn, T. eexists. split; [reflexivity|].
  cbn. rewrite Dn. split; [reflexivity|exact Nw].
Qed.

(* signals anywhere after entering, original handlers that do not raise *)
Section AtLeast.
Context (p : params) (l : list sig) (T : forall k, p_teardown p k = None)
        (R : forall s e, p_orig p s <> Callable (Some e)).

Definition inv2 (w : world) : Prop :=
  w_old w = Some l /\ (forall s, w_new w s = true -> In s l) /\
  (w_need w = false -> (1 <= w_downs w)%nat /\ restored w).
Definition later (w w' : world) : Prop :=
  (forall s, w_new w' s = true -> w_new w s = true) /\ (w_downs w <= w_downs w')%nat /\
  (w_need w = false -> w_need w' = false).
Definition post2 (w : world) (r : world * outcome) : Prop :=
  inv2 (fst r) /\ later w (fst r) /\ (forall e, snd r <> Raised e).

Lemma later_refl w : later w w.
Proof. repeat split; auto. Qed.
Lemma later_trans a b c : later a b -> later b c -> later a c.
Proof. intros (A & B & C) (A' & B' & C'). repeat split; auto; lia. Qed.
Lemma seq_post2 a b w : post2 w (a w) -> (forall w', inv2 w' -> later w w' -> post2 w' (b w')) -> post2 w (seqM a b w).
Proof.
  unfold seqM. destruct (a w) as [w' o]. intros (A & B & C) H. destruct o.
  - specialize (H w' A B). destruct (b w') as [w'' o'']. destruct H as (A' & B' & C').
    split; [exact A'|]. split; [now apply (later_trans w w')|exact C'].
  - exfalso. now apply (C e).
  - exact (conj A (conj B C)).
Qed.
Definition calm (q : place -> step) : Prop := forall a w, inv2 w -> post2 w (q a w).

Lemma restore_post2 q : calm q -> forall k w, inv2 w ->
  post2 w (restore q k w) /\
  (snd (restore q k w) = Go -> forall s, In s k -> w_new (fst (restore q k w)) s = false).
Proof.
  intros Q. induction k as [|s k IH]; intros w I; cbn [restore].
  - split; [|intros _ s []]. split; [exact I|]. split; [apply later_refl|discriminate].
  - assert (I1 : inv2 (set_new s false w)).
    { destruct I as (A & B & C). split; [exact A|]. split.
      - intros t. cbn. destruct (sig_eqb s t); [discriminate|apply B].
      - intros N. destruct (C N) as [C1 C2]. split; [exact C1|]. intros t. cbn. rewrite C2.
        now destruct (sig_eqb s t). }
    assert (L1 : later w (set_new s false w)).
    { repeat split; auto. intros t. cbn. now destruct (sig_eqb s t). }
    unfold seqM at 1 2 3, upd. unfold seqM.
    destruct (Q InRestore (set_new s false w) I1) as (I2 & L2 & R2).
    destruct (q InRestore (set_new s false w)) as [w2 o2]. cbn [fst snd] in *.
    destruct o2; [|exfalso; now apply (R2 e)|].
    2:{ split; [|discriminate]. split; [exact I2|]. split; [now apply (later_trans w _ w2 L1)|discriminate]. }
    destruct (IH w2 I2) as ((I3 & L3 & R3) & F3). destruct (restore q k w2) as [w3 o3]. cbn [fst snd] in *.
    split; [|intros Go3 t [<-|Ht]; [|now apply F3]].
    + split; [exact I3|]. split; [|exact R3]. apply (later_trans w _ w3 L1). now apply (later_trans _ w2).
    + destruct (w_new w3 s) eqn:N; [|reflexivity]. exfalso.
      apply L3 in N. apply L2 in N. cbn in N. destruct s; discriminate N.
Qed.
Lemma cleanup_post2 q w : calm q -> inv2 w -> post2 w (cleanup p q w) /\
  (snd (cleanup p q w) = Go -> w_need (fst (cleanup p q w)) = false).
Proof.
  intros Q I. unfold cleanup. destruct (w_need w) eqn:N.
  2:{ split; [|intros _; exact N]. split; [exact I|]. split; [now repeat split|discriminate]. }
  unfold teardown, seqM, upd, raise_opt.
  assert (I1 : inv2 (count_down w)).
  { destruct I as (A & B & C). split; [exact A|]. split; [exact B|]. cbn. congruence. }
  destruct (Q InTeardown (count_down w) I1) as (I2 & L2 & R2).
  destruct (q InTeardown (count_down w)) as [w2 o2]. cbn [fst snd] in *.
  assert (L1 : later w (count_down w)) by (repeat split; auto; cbn; lia).
  pose proof (later_trans _ _ _ L1 L2) as L12.
  destruct o2; [|exfalso; now apply (R2 e)|].
  2:{ split; [|discriminate]. split; [exact I2|]. split; [exact L12|discriminate]. }
  rewrite T. assert (O2 : w_old (set_ret (p_truthy p) w2) = Some l) by apply I2. rewrite O2.
  assert (I3 : inv2 (set_ret (p_truthy p) w2)) by exact I2.
  destruct (restore_post2 q Q l (set_ret (p_truthy p) w2) I3) as ((I4 & L4 & R4) & F4).
  destruct (restore q l (set_ret (p_truthy p) w2)) as [w4 o4]. cbn [fst snd] in *.
  assert (L04 : later w w4).
  { apply (later_trans w w2 w4 L12). exact L4. }
  destruct o4; [|exfalso; now apply (R4 e)|].
  2:{ split; [|discriminate]. split; [exact I4|]. split; [exact L04|discriminate]. }
  assert (Rw : restored w4).
  { intros s. destruct (w_new w4 s) eqn:Ns; [|reflexivity].
    destruct I4 as (_ & B & _). pose proof (F4 eq_refl s (B s Ns)). congruence. }
  assert (D : (1 <= w_downs w4)%nat).
  { destruct L2 as (_ & D2 & _). destruct L4 as (_ & D4 & _). cbn in D2, D4. lia. }
  split; [|reflexivity]. split; [|split; [|discriminate]].
  - destruct I4 as (A & B & _). split; [exact A|]. split; [exact B|]. intros _. split; [exact D|exact Rw].
  - destruct L04 as (A & B & C). repeat split; auto.
Qed.
Lemma deliver_post2 q s w : calm q -> inv2 w -> post2 w (deliver p q s w).
Proof.
  intros Q I. unfold deliver. destruct (w_new w s) eqn:N.
  - unfold newhandler. apply seq_post2; [now apply Q|]. intros w' I' _.
    apply seq_post2; [now apply cleanup_post2|]. clear I'. intros w2 I' _. 
    destruct (p_resend p); [|split; [exact I'|split; [apply later_refl|discriminate]]].
    unfold send. pose proof I' as (A & B & C). rewrite A.
    destruct (existsb (sig_eqb s) l); [|split; [exact I'|split; [apply later_refl|discriminate]]].
    destruct (p_orig p s) as [| |[e|]] eqn:D; try (split; [exact I'|split; [apply later_refl|discriminate]]).
    exfalso. now apply (R s e).
  - destruct (p_orig p s) as [| |[e|]] eqn:D; try (split; [exact I|split; [apply later_refl|discriminate]]).
    exfalso. now apply (R s e).
Qed.
Lemma poll_n_calm n : calm (poll_n p n).
Proof.
  assert (K : forall w r, inv2 w -> post2 w (set_env r w, Go)).
  { intros w r I. split; [exact I|]. split; [now repeat split|discriminate]. }
  assert (K0 : forall w, inv2 w -> post2 w (w, Go)).
  { intros w I. split; [exact I|]. split; [now repeat split|discriminate]. }
  induction n as [|n IH]; intros a w I; cbn [poll_n]; unfold pop.
  - destruct (w_env w) as [|f r]; [now apply K0|]. destruct (f a); now apply K.
  - destruct (w_env w) as [|f r]; [now apply K0|].
    assert (J : inv2 (set_env r w)) by exact I.
    destruct (f a) as [s|]; [|now apply K].
    change (post2 (set_env r w) (seqM (deliver p (poll_n p n) s) (poll_n p n a) (set_env r w))).
    apply seq_post2; [now apply deliver_post2|]. intros w' I' _. now apply IH.
Qed.
Lemma poll_calm : calm (poll p).
Proof. intros a w I. now apply poll_n_calm. Qed.
Lemma body_inv2 n r : forall w, inv2 w -> inv2 (fst (body p n r w)).
Proof.
  induction n as [|n IH]; intros w I; cbn [body]; [exact I|].
  unfold seqM. destruct (poll_calm InBody w I) as (A & B & C). destruct (poll p InBody w) as [w' o].
  destruct o; [now apply IH|exact A|exact A].
Qed.
End AtLeast.

Lemma entry_poll p a w : quiet_entry (w_env w) -> a = InEnter \/ a = InSetup ->
  poll p a w = (set_env (tl (w_env w)) w, Go).
Proof.
  intros H A. unfold poll.
  assert (P : pop a w = (None, set_env (tl (w_env w)) w)).
  { unfold pop. destruct (w_env w) as [|f l] eqn:E; [cbn; rewrite <- E at 1; now rewrite set_env_same|].
    inversion H as [|? ? [H1 H2] _]; subst. destruct A as [-> | ->]; [now rewrite H1|now rewrite H2]. }
  destruct (length (w_env w)); cbn [poll_n]; rewrite P; reflexivity.
Qed.
Lemma entry_tl e : quiet_entry e -> quiet_entry (tl e).
Proof. destruct e; [trivial|now inversion 1]. Qed.
Lemma run_at_least p env n r : well_behaved p -> quiet_entry env ->
  (forall s e, p_orig p s <> Callable (Some e)) ->
  let '(w, o) := run p n r (start env) in
  o <> Killed -> (1 <= w_downs w)%nat /\ restored w.
Proof.
  intros [S T] H R. unfold run.
  assert (E : exists w0, enter p (start env) = (w0, Go) /\ w_old w0 = Some (filter (p_settable p) (p_sigs p)) /\
     w_need w0 = true /\ (forall s, w_new w0 s = true -> In s (filter (p_settable p) (p_sigs p)))).
  { assert (Rp : forall sl acc w, quiet_entry (w_env w) ->
       exists w', replace p sl acc w = (w', Go) /\ quiet_entry (w_env w') /\
         w_old w' = Some (rev acc ++ filter (p_settable p) sl) /\ w_need w' = w_need w /\
         (forall s, w_new w' s = true -> In s (filter (p_settable p) sl) \/ w_new w s = true)).
    { induction sl as [|s sl IH]; intros acc w Hw; cbn [replace filter].
      - eexists. split; [reflexivity|]. cbn. rewrite app_nil_r. repeat split; auto.
      - destruct (p_settable p s) eqn:Ps.
        + unfold seqM, upd. rewrite entry_poll by (auto; exact Hw).
          destruct (IH (s :: acc) (set_env (tl (w_env (set_new s true w))) (set_new s true w))) as (w' & E & O & Ol & Nd & Nw).
          { cbn. now apply entry_tl. }
          exists w'. split; [exact E|]. split; [exact O|]. split; [rewrite Ol; cbn [rev]; now rewrite <- app_assoc|].
          split; [exact Nd|]. intros t Ht. destruct (Nw t Ht) as [G|G]; [left; now right|]. cbn in G.
          destruct (sig_eqb s t) eqn:A; [|now right]. apply sig_eqb_spec in A as ->. left. now left.
        + unfold seqM. rewrite entry_poll by auto.
          destruct (IH acc (set_env (tl (w_env w)) w)) as (w' & E & O & Ol & Nd & Nw).
          { cbn. now apply entry_tl. }
          exists w'. now repeat split. }
    unfold enter, seqM, upd. rewrite entry_poll by (auto; exact H).
    destruct (Rp (p_sigs p) [] (set_env (tl (w_env (set_need true (start env)))) (set_need true (start env)))) as (w' & E & O & Ol & Nd & Nw).
    { cbn. now apply entry_tl. }
    rewrite E, entry_poll by auto. unfold raise_opt. rewrite S.
    eexists. split; [reflexivity|]. cbn in Ol, Nd. split; [exact Ol|]. split; [exact Nd|].
    intros s Hs. destruct (Nw s Hs) as [G|G]; [exact G|discriminate G]. }
  destruct E as (w0 & E & Ol & Nd & Nw). rewrite E.
  set (l := filter (p_settable p) (p_sigs p)) in *.
  assert (I : inv2 l w0) by (split; [exact Ol|]; split; [exact Nw|]; congruence).
  pose proof (body_inv2 p l T R n r w0 I) as I1. destruct (body p n r w0) as [w1 o1]. cbn [fst] in I1.
  destruct (cleanup_post2 p l T (poll p) w1 (poll_calm p l T R) I1) as ((I2 & L2 & R2) & N2).
  destruct (cleanup p (poll p) w1) as [w2 o2]. cbn [fst snd] in *.
  destruct o1 as [|e1|], o2 as [|e2|]; try congruence; try (exfalso; now apply (R2 e2));
    intros _; apply I2, N2; reflexivity.
Qed.

(* the handler on its own *)
Lemma newhandler_quiet p s l w : (forall k, p_teardown p k = None) ->
  only_in_body (w_env w) -> w_need w = true -> w_old w = Some l -> In s l ->
  exists w', newhandler p (poll p) s w =
      (w', match p_resend p, p_orig p s with
           | true, Callable (Some TypeError) => Go
           | true, Callable (Some e) => Raised e
           | _, _ => Go
           end) /\
    w_downs w' = S (w_downs w) /\ w_need w' = false /\ forall s, In s l -> w_new w' s = false.
Proof.
  intros T O N L I. unfold newhandler. unfold seqM at 1. rewrite (poll_quiet p InHandler w) by (discriminate || exact O).
  set (w0 := set_env (tl (w_env w)) w).
  destruct (cleanup_quiet p (poll p) l w0 (poll_quiet p) T (only_tl _ O) N L) as (w' & E & _ & Ol & Nd & Dn & _ & Nw).
  unfold seqM. rewrite E. exists w'. split.
  - destruct (p_resend p); [|reflexivity]. unfold send. rewrite Ol.
    replace (existsb (sig_eqb s) l) with true by (symmetry; now apply existsb_sig).
    destruct (p_orig p s) as [| |[e|]]; try reflexivity. now destruct e.
  - split; [exact Dn|]. split; [exact Nd|]. intros s' I'. rewrite Nw. apply existsb_sig in I'. now rewrite I'.
Qed.
