From Verif Require Import Base BaseProofs CacheModel CacheSpec.

Section Limited.
Context {K V : Type} (eqb : K -> K -> bool) (Heqb : decides_eq eqb).

Lemma lastn_length {A} n (l : list A) : length (lastn n l) = Nat.min n (length l).
Proof. unfold lastn. rewrite skipn_length. lia. Qed.

Lemma lastn_all {A} n (l : list A) : (length l <= n)%nat -> lastn n l = l.
Proof. intros H. unfold lastn. replace (length l - n)%nat with O by lia. reflexivity. Qed.

Lemma lastn_app1 {A} n (l : list A) x : (0 < n)%nat ->
  lastn n (l ++ [x]) = lastn n (lastn n l ++ [x]).
Proof.
  intros Hn. unfold lastn. rewrite !app_length, !skipn_length. cbn [length].
  rewrite !skipn_app, !skipn_skipn', !skipn_length. f_equal.
  - f_equal. lia.
  - f_equal. lia.
Qed.

Lemma lastn_0 {A} (l : list A) : lastn 0 l = [].
Proof. unfold lastn. apply skipn_all2. lia. Qed.

Lemma map_lastn {A B} (f : A -> B) n l : map f (lastn n l) = lastn n (map f l).
Proof. unfold lastn. rewrite map_length. symmetry. apply skipn_map. Qed.

Lemma check_nonneg n (d : list (K * V)) :
  check_size_limit (Some (Z.of_nat n)) d = Ok (lastn n d).
Proof.
  induction d as [|kv d IH]; cbn [check_size_limit].
  - destruct (0 >? Z.of_nat n) eqn:E; [lia|]. unfold lastn. now rewrite skipn_nil.
  - destruct (Z.of_nat (length (kv :: d)) >? Z.of_nat n) eqn:E.
    + rewrite IH. unfold lastn. cbn [length] in *.
      replace (S (length d) - n)%nat with (S (length d - n)) by lia. reflexivity.
    + rewrite lastn_all by (cbn [length] in *; lia). reflexivity.
Qed.

Lemma check_neg n (d : list (K * V)) : n < 0 -> check_size_limit (Some n) d = Err KeyError.
Proof.
  intros Hn. induction d as [|kv d IH]; cbn [check_size_limit].
  - destruct (0 >? n) eqn:E; [reflexivity|lia].
  - destruct (Z.of_nat (length (kv :: d)) >? n) eqn:E; [exact IH|lia].
Qed.

Lemma lookup_lastn (k : K) (v : V) n d :
  NoDup (keys d) -> lookup eqb k (lastn n d) = Some v -> lookup eqb k d = Some v.
Proof.
  intros Hn Hl. apply (lookup_Some_In eqb Heqb) in Hl. apply (In_lookup eqb Heqb); [exact Hn|].
  unfold lastn in Hl. rewrite <- (firstn_skipn (length d - n) d). apply in_or_app. now right.
Qed.

Lemma NoDup_lastn {A} n (l : list A) : NoDup l -> NoDup (lastn n l).
Proof.
  intros H. unfold lastn. rewrite <- (firstn_skipn (length l - n) l) in H.
  apply NoDup_app_inv in H. apply H.
Qed.

Lemma existsb_mem k (d : list (K * V)) : existsb (eqb k) (keys d) = mem eqb k d.
Proof.
  induction d as [|[k' v'] d IH]; cbn; [reflexivity|]. unfold mem in *; cbn.
  destruct (eqb k k'); cbn; [reflexivity|exact IH].
Qed.

Definition linv (n : nat) (ops : list (K * V)) (d : list (K * V)) : Prop :=
  keys d = lastn n (history eqb n (map fst ops)) /\ NoDup (keys d) /\
  (forall k v, lookup eqb k d = Some v -> last_assigned eqb k ops = Some v).

Lemma linv_step n ops d op :
  linv n ops d -> linv n (ops ++ [op]) (lastn n (assign eqb (fst op) (snd op) d)).
Proof.
  intros (Hk & Hn & Hl). destruct op as [k v]; cbn [fst snd].
  assert (Hn' : NoDup (keys (assign eqb k v d))) by (apply NoDup_keys_assign; assumption).
  split; [|split].
  - unfold keys. rewrite map_lastn. fold (keys (assign eqb k v d)).
    unfold history. rewrite map_app, fold_left_app. cbn [map fold_left fst].
    fold (history eqb n (map fst ops)). unfold history_step. rewrite <- Hk, existsb_mem.
    assert (Hle : (length (keys d) <= n)%nat) by (rewrite Hk, lastn_length; lia).
    destruct (mem eqb k d) eqn:E.
    + apply (mem_true eqb Heqb) in E. rewrite keys_assign_in by assumption.
      rewrite lastn_all by exact Hle. exact Hk.
    + apply (mem_false eqb Heqb) in E. rewrite keys_assign_notin by assumption.
      unfold keys at 1. rewrite map_app. cbn [map fst]. fold (keys d). rewrite Hk.
      destruct n as [|n]; [now rewrite !lastn_0|].
      rewrite <- lastn_app1 by lia. reflexivity.
  - unfold keys. rewrite map_lastn. apply NoDup_lastn. exact Hn'.
  - intros k' v' H. apply lookup_lastn in H; [|exact Hn'].
    unfold last_assigned. rewrite rev_app_distr. cbn [rev app lookup].
    destruct (eqb k' k) eqn:E.
    + apply Heqb in E; subst. rewrite lookup_assign_same in H by assumption. exact H.
    + apply (deq_neq _ Heqb) in E. rewrite lookup_assign_other in H by assumption.
      apply Hl. exact H.
Qed.

Lemma setitems_app (limit : option Z) (d : list (K * V)) ops1 ops2 :
  setitems eqb limit d (ops1 ++ ops2) =
  let! d1 := setitems eqb limit d ops1 in setitems eqb limit d1 ops2.
Proof.
  revert d; induction ops1 as [|op ops1 IH]; intros d; cbn; [reflexivity|].
  destruct (setitem eqb limit d op); cbn; [apply IH|reflexivity].
Qed.

Lemma setitems_linv n ops :
  exists d, setitems eqb (Some (Z.of_nat n)) [] ops = Ok d /\ linv n ops d.
Proof.
  induction ops as [|op ops IH] using rev_ind.
  - exists []. split; [reflexivity|]. split; [|split].
    + unfold lastn; cbn. reflexivity.
    + constructor.
    + intros k v [=].
  - destruct IH as (d & Hd & Hi).
    exists (lastn n (assign eqb (fst op) (snd op) d)). split.
    + rewrite setitems_app, Hd. cbn. unfold setitem. rewrite check_nonneg. reflexivity.
    + apply linv_step. exact Hi.
Qed.

Lemma limited_dict_spec (n : nat) (ops : list (K * V)) :
  exists d, setitems eqb (Some (Z.of_nat n)) [] ops = Ok d /\
    (length d <= n)%nat /\ NoDup (keys d) /\
    keys d = lastn n (history eqb n (map fst ops)) /\
    (forall k v, lookup eqb k d = Some v -> last_assigned eqb k ops = Some v).
Proof.
  destruct (setitems_linv n ops) as (d & Hd & Hk & Hn & Hl).
  exists d. repeat split; auto.
  replace (length d) with (length (keys d)) by apply map_length.
  rewrite Hk, lastn_length. lia.
Qed.

Lemma unlimited_dict_spec (ops : list (K * V)) :
  exists d, setitems eqb None [] ops = Ok d /\ NoDup (keys d) /\
    (forall k, lookup eqb k d = last_assigned eqb k ops).
Proof.
  induction ops as [|op ops IH] using rev_ind.
  - exists []. repeat split; auto. constructor.
  - destruct IH as (d & Hd & Hn & Hl). exists (assign eqb (fst op) (snd op) d).
    split; [|split].
    + rewrite setitems_app, Hd. cbn. unfold setitem. cbn.
      destruct (assign eqb (fst op) (snd op) d); reflexivity.
    + apply NoDup_keys_assign; assumption.
    + intros k. unfold last_assigned. rewrite rev_app_distr. cbn [rev app].
      destruct op as [k' v']. cbn [fst snd lookup]. destruct (eqb k k') eqn:E.
      * apply Heqb in E; subst. apply lookup_assign_same; assumption.
      * apply (deq_neq _ Heqb) in E. rewrite lookup_assign_other by assumption. apply Hl.
Qed.

Lemma limited_init_spec (limit : option Z) (items d : list (K * V)) :
  limited_init eqb limit items = Ok d -> setitems eqb limit [] items = Ok d.
Proof.
  unfold limited_init. destruct limit as [n|].
  - destruct (Z.ltb_spec n 0) as [Hn|Hn].
    + intros H. destruct (setitems eqb (Some n) [] items); cbn [bind] in H; [|discriminate].
      rewrite check_neg in H by exact Hn. discriminate.
    + rewrite <- (Z2Nat.id n) by exact Hn.
      destruct (limited_dict_spec (Z.to_nat n) items) as (d1 & -> & Hlen & _). cbn [bind].
      rewrite check_nonneg, lastn_all by exact Hlen. auto.
  - destruct (setitems eqb None [] items) as [d1|]; cbn [bind]; [|discriminate].
    destruct d1; cbn; auto.
Qed.

Lemma limited_negative (n : Z) (d : list (K * V)) op :
  n < 0 -> setitem eqb (Some n) d op = Err KeyError.
Proof. intros. apply check_neg. assumption. Qed.
End Limited.

Section CacheCtx.
Context {K V : Type} (eqb : K -> K -> bool) (Heqb : decides_eq eqb).
Context (has_gen : K -> bool) (gen : nat -> K -> result V) (force : bool).
Notation exec := (exec eqb has_gen gen force).
Notation getcache := (getcache eqb has_gen gen force).

(* No generation of s and all reads of s give v. *)
Definition reads_only (s : K) (v : V) (evs : list event) : Prop :=
  Forall (fun e => match e with Gen s' _ => s' <> s | Read s' v' => s' = s -> v' = v end) evs.

Lemma generate_events s st r st1 :
  generate has_gen gen s st = (r, st1) ->
  store st1 = store st /\
  match r with Ok v => events st1 = events st ++ [Gen s v] | Err _ => events st1 = events st end.
Proof.
  unfold generate. destruct (has_gen s).
  - destruct (gen (ncalls st) s); intros [= <- <-]; auto.
  - intros [= <- <-]; auto.
Qed.

Lemma remove_assign_notin s (v : V) d :
  mem eqb s d = false -> remove_key eqb s (assign eqb s v d) = d.
Proof.
  unfold mem. induction d as [|[k' v'] d IH]; cbn.
  - now rewrite (deq_refl _ Heqb).
  - destruct (eqb s k') eqn:E; [discriminate|]. cbn. rewrite E. intros H. now rewrite IH.
Qed.

Lemma exec_ok p : forall st st',
  exec p st = (Ok tt, st') ->
  store st' = store st /\
  exists evs, events st' = events st ++ evs /\
    forall s v, lookup eqb s (store st) = Some v -> reads_only s v evs.
Proof.
  induction p as [|s|e|p IHp q IHq|s body IH]; cbn [CacheModel.exec]; intros st st' H.
  - injection H as <-. split; [reflexivity|]. exists []. rewrite app_nil_r. split; [reflexivity|].
    intros; constructor.
  - unfold CacheModel.getcache in H. destruct (lookup eqb s (store st)) as [v|] eqn:E.
    + injection H as <-. cbn. split; [reflexivity|]. exists [Read s v]. split; [reflexivity|].
      intros s' v' Hl. constructor; [|constructor]. intros <-. congruence.
    + destruct force; [discriminate|].
      destruct (generate has_gen gen s st) as [[v|e] st1] eqn:G; [|discriminate].
      injection H as <-. apply generate_events in G. destruct G as [Hs He]. cbn.
      split; [exact Hs|]. exists [Gen s v; Read s v]. rewrite He, <- app_assoc.
      split; [reflexivity|]. intros s' v' Hl. repeat constructor; intros <-; congruence.
  - discriminate.
  - destruct (exec p st) as [[[]|e] st1] eqn:E; [|discriminate].
    destruct (IHp _ _ E) as (Hs1 & evs1 & He1 & Hr1).
    destruct (IHq _ _ H) as (Hs2 & evs2 & He2 & Hr2).
    split; [congruence|]. exists (evs1 ++ evs2). rewrite He2, He1, app_assoc.
    split; [reflexivity|]. intros s v Hl. apply Forall_app. split; [apply Hr1; exact Hl|].
    apply Hr2. rewrite Hs1. exact Hl.
  - destruct (mem eqb s (store st)) eqn:Em; [apply IH; exact H|].
    destruct (generate has_gen gen s st) as [[v|e] st1] eqn:G; [|discriminate].
    apply generate_events in G. destruct G as [Hs He].
    set (st2 := {| store := assign eqb s v (store st1); ncalls := ncalls st1; events := events st1 |}) in *.
    destruct (exec body st2) as [[[]|e] st3] eqn:B; [|discriminate].
    destruct (IH _ _ B) as (Hs3 & evs & He3 & Hr). injection H as <-. cbn [store events].
    assert (Hsame : remove_key eqb s (store st3) = store st).
    { rewrite Hs3. unfold st2. cbn [store]. rewrite Hs. apply remove_assign_notin. exact Em. }
    split; [exact Hsame|].
    exists (Gen s v :: evs). rewrite He3. unfold st2; cbn [events]. rewrite He, <- app_assoc.
    split; [reflexivity|]. intros s' v' Hl.
    assert (Hne : s' <> s).
    { intros ->. unfold mem in Em. rewrite Hl in Em. discriminate. }
    constructor; [congruence|]. apply Hr. unfold st2; cbn [store]. rewrite Hs.
    rewrite lookup_assign_other by assumption. exact Hl.
Qed.

Lemma ctx_ok s body st st' :
  mem eqb s (store st) = false ->
  exec (Ctx s body) st = (Ok tt, st') ->
  store st' = store st /\
  exists v evs, events st' = events st ++ Gen s v :: evs /\ reads_only s v evs.
Proof.
  intros Em H. cbn [CacheModel.exec] in H. rewrite Em in H.
  destruct (generate has_gen gen s st) as [[v|e] st1] eqn:G; [|discriminate].
  apply generate_events in G. destruct G as [Hs He].
  set (st2 := {| store := assign eqb s v (store st1); ncalls := ncalls st1; events := events st1 |}) in *.
  destruct (exec body st2) as [[[]|e] st3] eqn:B; [|discriminate].
  destruct (exec_ok _ _ _ B) as (Hs3 & evs & He3 & Hr). injection H as <-. cbn [store events].
  split.
  - rewrite Hs3. unfold st2. cbn [store]. rewrite Hs. apply remove_assign_notin. exact Em.
  - exists v, evs. rewrite He3. unfold st2; cbn [events]. rewrite He, <- app_assoc.
    split; [reflexivity|]. apply Hr. unfold st2; cbn [store]. apply lookup_assign_same; assumption.
Qed.

Lemma ctx_nested s body st st' v :
  lookup eqb s (store st) = Some v ->
  exec (Ctx s body) st = (Ok tt, st') ->
  store st' = store st /\
  exists evs, events st' = events st ++ evs /\ reads_only s v evs.
Proof.
  intros Hl H. cbn [CacheModel.exec] in H. unfold mem in H. rewrite Hl in H.
  destruct (exec_ok _ _ _ H) as (Hs & evs & He & Hr). split; [exact Hs|].
  exists evs. split; [exact He|]. apply Hr. exact Hl.
Qed.

Lemma getcache_outside s st :
  mem eqb s (store st) = false -> force = true ->
  getcache s st = (Err (if has_gen s then RuntimeError else AttributeError), st).
Proof.
  intros Em Hf. unfold CacheModel.getcache. unfold mem in Em.
  destruct (lookup eqb s (store st)); [discriminate|]. now rewrite Hf.
Qed.
End CacheCtx.

Definition ex_gen (n : nat) (s : Z) : result Z := Ok (100 * s + Z.of_nat n).
Definition ex_exec (p : prog) (st : cstate) := exec Z.eqb (fun _ => true) ex_gen true p st.
Definition ex_init : @cstate Z Z := {| store := []; ncalls := 0; events := [] |}.

(* After a body that raises, the value stays cached: a later context for the same
   subject does not generate and reads the old value. *)
Lemma cachectx_exception :
  exists body st1 st2,
    ex_exec (Ctx 7 body) ex_init = (Err ValueError, st1) /\
    store st1 <> [] /\
    ex_exec (Ctx 7 (Get 7)) st1 = (Ok tt, st2) /\
    events st2 = [Gen 7 700; Read 7 700].
Proof.
  exists (Raise ValueError). eexists. eexists. split; [reflexivity|].
  split; [discriminate|]. split; reflexivity.
Qed.
