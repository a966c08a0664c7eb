From Verif Require Import BaseProofs MaketaskModel.
From Coq Require Import Lia.
Local Open Scope string_scope.
Local Open Scope list_scope.
Local Open Scope nat_scope.

Lemma str_deq : decides_eq String.eqb.
Proof. intros a b. apply String.eqb_eq. Qed.
Lemma set_default_lookup p d k : lookup String.eqb k (set_default p d) = match lookup String.eqb k p with Some v => Some v | None => if String.eqb k (fst d) then Some (snd d) else None end.
Proof.
  unfold set_default. destruct (String.eqb k (fst d)) eqn:E.
  - apply String.eqb_eq in E. subst k. destruct (lookup String.eqb (fst d) p); now rewrite lookup_assign_same by exact str_deq.
  - apply String.eqb_neq in E. destruct (lookup String.eqb (fst d) p); rewrite lookup_assign_other by (exact str_deq || exact E); destruct (lookup String.eqb k p); reflexivity.
Qed.
Lemma defaults_lookup : forall ds p k, lookup String.eqb k (fold_left set_default ds p) = match lookup String.eqb k p with Some v => Some v | None => lookup String.eqb k ds end.
Proof.
  induction ds as [|[k' v'] ds IH]; intros p k; cbn [fold_left lookup]; [destruct (lookup String.eqb k p); reflexivity|]. rewrite IH, set_default_lookup. cbn [fst snd].
  destruct (lookup String.eqb k p); [reflexivity|]. destruct (String.eqb k k'); reflexivity.
Qed.
Lemma filter_lookup (f : string -> bool) : forall (p : params) k, lookup String.eqb k (filter (fun kv => f (fst kv)) p) = if f k then lookup String.eqb k p else None.
Proof.
  induction p as [|[k' v'] p IH]; intros k; cbn [filter lookup fst]; [destruct (f k); reflexivity|]. destruct (f k') eqn:F; cbn [lookup]; destruct (String.eqb k k') eqn:E; try (apply String.eqb_eq in E; subst k').
  - now rewrite F.
  - apply IH.
  - rewrite IH, F. reflexivity.
  - apply IH.
Qed.
Lemma existsb_in k l : existsb (String.eqb k) l = true <-> In k l.
Proof. rewrite existsb_exists. split; [intros (x & I & E); apply String.eqb_eq in E; now subst|intros I; exists k; split; [exact I|apply String.eqb_refl]]. Qed.
Lemma mem_keys k (p : params) : mem String.eqb k p = true <-> In k (map fst p).
Proof.
  unfold mem. induction p as [|[k' v'] p IH]; cbn [lookup map fst In]; [split; [discriminate|intros []]|]. destruct (String.eqb k k') eqn:E.
  - apply String.eqb_eq in E. subst. tauto.
  - apply String.eqb_neq in E. rewrite IH. split; [auto|intros [H|H]; [congruence|exact H]].
Qed.
Lemma lookup_mem k (p : params) : (exists v, lookup String.eqb k p = Some v) <-> In k (map fst p).
Proof. rewrite <- mem_keys. unfold mem. destruct (lookup String.eqb k p); split; eauto; intros; try discriminate. destruct H; discriminate. Qed.
Theorem parameters_kept required optional defaults p r : set_parameters required optional defaults p = Ok r -> forall k, In k ("name" :: "method" :: "default" :: required ++ optional) ->
  (forall v, lookup String.eqb k p = Some v -> lookup String.eqb k r = Some v) /\
  (~ In k (map fst p) -> k <> "name" -> k <> "default" -> lookup String.eqb k r = lookup String.eqb k defaults) /\
  (~ In k (map fst p) -> k = "name" -> lookup String.eqb k r = lookup String.eqb "method" p) /\
  (~ In k (map fst p) -> k = "default" -> lookup String.eqb k r = Some NoneValue).
Proof.
  unfold set_parameters. intros H k I. destruct (lookup String.eqb "method" p) as [m|] eqn:M; [|discriminate]. destruct (forallb _ _) eqn:F; [|discriminate].
  match type of H with Ok ?x = _ => assert (r = x) as -> by congruence end. clear H F.
  assert (existsb (String.eqb k) (all_required required ++ optional) = true) as E by (apply existsb_in; exact I).
  rewrite (filter_lookup (fun k => existsb (String.eqb k) (all_required required ++ optional))). rewrite E, defaults_lookup.
  assert (~ In k (map fst p) -> lookup String.eqb k p = None) as N by (rewrite <- lookup_mem; destruct (lookup String.eqb k p); [intros X; exfalso; apply X; eauto|reflexivity]).
  split; [intros v ->; reflexivity|]. split; [|split].
  - intros X A B. rewrite (N X). cbn [lookup]. apply String.eqb_neq in A, B. now rewrite A, B.
  - intros X ->. rewrite (N X). reflexivity.
  - intros X ->. rewrite (N X). reflexivity.
Qed.
Theorem parameters_filtered required optional defaults p r : set_parameters required optional defaults p = Ok r ->
  (forall k, In k (map fst r) -> In k ("name" :: "method" :: "default" :: required ++ optional)) /\ (forall k, In k ("name" :: "method" :: "default" :: required) -> In k (map fst r)).
Proof.
  unfold set_parameters. intros H. destruct (lookup String.eqb "method" p) as [m|] eqn:M; [|discriminate]. destruct (forallb _ _) eqn:F; [|discriminate].
  match type of H with Ok ?x = _ => assert (r = x) as -> by congruence end. clear H. split; intros k I.
  - apply in_map_iff in I as ((k' & v) & <- & I). apply filter_In in I as [_ I]. apply existsb_in in I. exact I.
  - rewrite forallb_forall in F. specialize (F k I). apply lookup_mem. rewrite (filter_lookup (fun k => existsb (String.eqb k) (all_required required ++ optional))).
    assert (existsb (String.eqb k) (all_required required ++ optional) = true) as -> by (apply existsb_in; apply in_or_app; now left). apply lookup_mem. apply mem_keys. exact F.
Qed.
Theorem parameters_errors required optional defaults p :
  (~ In "method" (map fst p) -> set_parameters required optional defaults p = Err KeyError) /\
  (In "method" (map fst p) -> (set_parameters required optional defaults p = Err MissingParameter <-> exists k, In k required /\ ~ In k ("name" :: "default" :: map fst p) /\ ~ In k (map fst defaults))).
Proof.
  unfold set_parameters. split.
  - intros N. destruct (lookup String.eqb "method" p) eqn:M; [exfalso; apply N; apply lookup_mem; eauto|reflexivity].
  - intros I. pose proof I as I0. apply lookup_mem in I as (m & M). rewrite M.
    assert (forall k, mem String.eqb k (fold_left set_default (("name", m) :: ("default", NoneValue) :: defaults) p) = true <-> In k (map fst p) \/ k = "name" \/ k = "default" \/ In k (map fst defaults)) as MK.
    { intros k. unfold mem. rewrite defaults_lookup. rewrite <- lookup_mem, <- (lookup_mem k defaults). cbn [lookup]. destruct (lookup String.eqb k p) as [v|]; [split; eauto|].
      destruct (String.eqb k "name") eqn:A; [apply String.eqb_eq in A; subst; tauto|]. destruct (String.eqb k "default") eqn:B; [apply String.eqb_eq in B; subst; tauto|]. apply String.eqb_neq in A, B.
      destruct (lookup String.eqb k defaults) as [v|]; [split; [intros _; right; right; right; eauto|reflexivity]|]. split; [discriminate|]. intros [(? & X)|[X|[X|(? & X)]]]; congruence. }
    destruct (forallb _ _) eqn:F.
    + split; [discriminate|]. intros (k & K1 & K2 & K3). exfalso. rewrite forallb_forall in F. assert (In k (all_required required)) as K by (right; right; right; exact K1). specialize (F k K). apply MK in F. cbn [In] in K2. destruct F as [F|[F|[F|F]]]; intuition congruence.
    + split; [intros _|reflexivity]. assert (exists k, In k (all_required required) /\ mem String.eqb k (fold_left set_default (("name", m) :: ("default", NoneValue) :: defaults) p) = false) as (k & K1 & K2).
      { clear - F. revert F. generalize (all_required required). intros l. induction l as [|x l IH]; intros F; [discriminate|]. cbn [forallb] in F. destruct (mem String.eqb x _) eqn:E; [cbn in F; destruct (IH F) as (k & A & B); exists k; split; [now right|exact B]|exists x; split; [now left|exact E]]. }
      assert (~ (In k (map fst p) \/ k = "name" \/ k = "default" \/ In k (map fst defaults))) as K3 by (rewrite <- MK; congruence).
      exists k. destruct K1 as [K1|[K1|[K1|K1]]]; [subst; tauto|subst; tauto|subst; tauto|]. split; [exact K1|]. cbn [In]. split; [intros [X|[X|X]]|]; intuition congruence.
Qed.
Theorem known_class p m c : lookup String.eqb "method" p = Some (Text m) -> In (m, c) table -> task_class p = Ok (Module c, p).
Proof.
  intros M I. unfold task_class, module_of. rewrite M. assert (lookup String.eqb m table = Some c) as ->; [|reflexivity].
  revert I. cbn [table In]. intros I. repeat (destruct I as [I|I]; [assert (m = fst (m, c)) as E by reflexivity; assert (c = snd (m, c)) as E2 by reflexivity; rewrite <- I in E, E2; cbn in E, E2; subst; reflexivity|]). destruct I.
Qed.
Theorem unknown_class p : (forall m, lookup String.eqb "method" p = Some (Text m) -> ~ In m (map fst table)) ->
  (forall c, lookup String.eqb "_task" p = Some (Class c) -> exists q, task_class p = Ok (c, q) /\ forall k, k <> "_task" -> lookup String.eqb k q = lookup String.eqb k p) /\
  (~ In "_task" (map fst p) -> task_class p = Err (UserError 0)).
Proof.
  intros H. assert (module_of p = None) as N.
  { unfold module_of. destruct (lookup String.eqb "method" p) as [[m| | |]|]; try reflexivity. specialize (H m eq_refl). revert H. generalize table. intros t. induction t as [|[a b] t IH]; intros H; [reflexivity|]. cbn [lookup map fst In] in *. destruct (String.eqb m a) eqn:E; [apply String.eqb_eq in E; exfalso; apply H; left; congruence|]. apply IH. tauto. }
  unfold task_class. rewrite N. split.
  - intros c T. rewrite T. exists (remove_key String.eqb "_task" p). split; [reflexivity|]. intros k K. clear - K. induction p as [|[k' v] p IH]; [reflexivity|]. cbn [remove_key lookup]. destruct (String.eqb "_task" k') eqn:E.
    + apply String.eqb_eq in E. subst k'. apply String.eqb_neq in K. now rewrite K.
    + cbn [lookup]. destruct (String.eqb k k'); [reflexivity|exact IH].
  - intros X. destruct (lookup String.eqb "_task" p) eqn:E; [exfalso; apply X; apply lookup_mem; eauto|reflexivity].
Qed.
Theorem path_wrapped specs name path deps : path <> NoneValue -> nxpathtotask specs None name path deps = Err AttributeError.
Proof. intros N. unfold nxpathtotask. cbn. destruct path; try reflexivity. congruence. Qed.
Theorem process_wrapped specs p name path deps : ~ In "method" (map fst p) -> (forall k, In k ["dependencies"; "outputparent"; "_task"] -> ~ In k (map fst p)) ->
  exists q, nxpathtotask specs (Some p) name path deps = Ok (ProcessWrap, q) /\ (forall k, k <> "name" -> lookup String.eqb k q = lookup String.eqb k p) /\
    (In "name" (map fst p) -> lookup String.eqb "name" q = lookup String.eqb "name" p) /\ (~ In "name" (map fst p) -> lookup String.eqb "name" q = Some (Text name)).
Proof.
  intros M R. unfold nxpathtotask. assert (mem String.eqb "method" p = false) as -> by (apply Bool.not_true_iff_false; rewrite mem_keys; exact M). cbn [negb andb].
  set (p' := if negb (mem String.eqb "name" p) then assign String.eqb "name" (Text name) p else p).
  assert (forall k, k <> "name" -> lookup String.eqb k p' = lookup String.eqb k p) as K.
  { intros k N. unfold p'. destruct (mem String.eqb "name" p); [reflexivity|]. now apply lookup_assign_other; [exact str_deq|]. }
  assert (existsb (fun k => mem String.eqb k p') ["dependencies"; "outputparent"; "_task"] = false) as ->.
  { apply Bool.not_true_iff_false. rewrite existsb_exists. intros (k & I & E). apply mem_keys in E. apply lookup_mem in E as (v & E). rewrite K in E by (cbn in I; intros ->; intuition congruence). apply (R k I). apply lookup_mem. eauto. }
  exists p'. split; [|split; [exact K|split]].
  - unfold create_task, task_class, module_of. cbn [lookup]. assert (String.eqb "method" "_task" = false) as -> by reflexivity. rewrite K by discriminate.
    assert (lookup String.eqb "method" p = None) as -> by (destruct (lookup String.eqb "method" p) eqn:E; [exfalso; apply M; apply lookup_mem; eauto|reflexivity]).
    assert (String.eqb "_task" "_task" = true) as -> by reflexivity. cbn [bind remove_key]. assert (String.eqb "_task" "_task" = true) as -> by reflexivity. cbn [init]. rewrite Bool.orb_true_r. reflexivity.
  - intros I. unfold p'. apply mem_keys in I. now rewrite I.
  - intros I. unfold p'. assert (mem String.eqb "name" p = false) as -> by (apply Bool.not_true_iff_false; rewrite mem_keys; exact I). cbn [negb]. now rewrite lookup_assign_same by exact str_deq.
Qed.
Theorem no_output specs c p q : init specs c false true p = Ok q -> init specs c true false p = Ok q /\ init specs c false false p = Err ValueError.
Proof. destruct c as [m| |]; cbn [init orb]; [|intros H; auto|destruct (lookup String.eqb "path" p) as [[| | |]|]; discriminate]. destruct (set_parameters _ _ _ p); cbn [bind]; [auto|discriminate]. Qed.
Theorem replaced o new data : List.length (replace o new data) = List.length data /\ forall i x, nth_error data i = Some x ->
  (forall q, o = Number q -> x = Some q -> nth_error (replace o new data) i = Some new) /\ (forall q, o = Number q -> x <> Some q -> nth_error (replace o new data) i = Some x) /\
  (o = NpNan -> x = None -> nth_error (replace o new data) i = Some new) /\ (o = NpNan -> x <> None -> nth_error (replace o new data) i = Some x).
Proof.
  split; [destruct o; cbn [replace]; now rewrite ?map_length|]. intros i x X. repeat split; [intros q -> ->|intros q -> N|intros -> ->|intros -> N]; cbn [replace]; rewrite nth_error_map, X; cbn [option_map].
  - assert (Qc_eqb q q = true) as -> by now apply Qc_eqb_spec. reflexivity.
  - destruct x as [y|]; [|reflexivity]. destruct (Qc_eqb y q) eqn:E; [|reflexivity]. apply Qc_eqb_spec in E. subst. congruence.
  - reflexivity.
  - destruct x; [reflexivity|congruence].
Qed.
Theorem other_nan new data : replace OtherNan new data = data.
Proof. reflexivity. Qed.
From Verif Require Import MaketaskSpec.
Theorem known_method p m c : lookup String.eqb "method" p = Some (Text m) -> In (m, c) methods -> task_class p = Ok (Module c, p).
Proof. exact (known_class p m c). Qed.
Theorem unknown_method p : (forall m, lookup String.eqb "method" p = Some (Text m) -> ~ In m (map fst methods)) ->
  (forall c, lookup String.eqb "_task" p = Some (Class c) -> exists q, task_class p = Ok (c, q) /\ forall k, k <> "_task" -> lookup String.eqb k q = lookup String.eqb k p) /\
  (~ In "_task" (map fst p) -> task_class p = Err (UserError 0)).
Proof. exact (unknown_class p). Qed.
Theorem given_twice specs p name path deps k : In k ["dependencies"; "outputparent"; "_task"] -> In k (map fst p) -> nxpathtotask specs (Some p) name path deps = Err TypeError.
Proof.
  intros I K. unfold nxpathtotask. set (p' := if negb (mem String.eqb "method" p) && negb (mem String.eqb "name" p) then assign String.eqb "name" (Text name) p else p). assert (existsb (fun k => mem String.eqb k p') ["dependencies"; "outputparent"; "_task"] = true) as ->; [|reflexivity].
  apply existsb_exists. exists k. split; [exact I|]. apply mem_keys. apply lookup_mem. apply lookup_mem in K as (v & K). exists v. unfold p'. destruct (negb (mem String.eqb "method" p) && negb (mem String.eqb "name" p)); [|exact K].
  rewrite lookup_assign_other; [exact K|exact str_deq|]. cbn in I. intros ->. intuition congruence.
Qed.
Theorem process_known specs p name path deps m c : lookup String.eqb "method" p = Some (Text m) -> In (m, c) methods -> (forall k, In k ["dependencies"; "outputparent"; "_task"] -> ~ In k (map fst p)) ->
  nxpathtotask specs (Some p) name path deps = match set_parameters (s_required (specs c)) (s_optional (specs c)) (s_defaults (specs c)) (("_task", Class ProcessWrap) :: p) with Ok q => Ok (Module c, q) | Err e => Err e end.
Proof.
  intros M I R. unfold nxpathtotask. assert (mem String.eqb "method" p = true) as -> by (unfold mem; now rewrite M). cbn [negb andb].
  assert (existsb (fun k => mem String.eqb k p) ["dependencies"; "outputparent"; "_task"] = false) as ->.
  { apply Bool.not_true_iff_false. rewrite existsb_exists. intros (k & J & E). apply mem_keys in E. exact (R k J E). }
  unfold create_task. rewrite (known_class (("_task", Class ProcessWrap) :: p) m c); [|exact M|exact I]. cbn [bind init]. destruct (set_parameters _ _ _ _); cbn [bind]; [|reflexivity]. now rewrite Bool.orb_true_r.
Qed.
