From Verif Require Import BaseProofs H5gridModel.
From Coq Require Import Lia.
Local Open Scope list_scope.
Local Open Scope nat_scope.

Lemma broadcast_refl l : broadcastable l l = true.
Proof. induction l as [|a l IH]; [reflexivity|]. cbn. now rewrite Nat.eqb_refl, IH. Qed.
Lemma clip_inside sh : forall idx, inside idx sh = true -> clip sh idx = idx.
Proof.
  induction sh as [|n sh IH]; intros [|i idx] H; try reflexivity; try discriminate. cbn in *. apply andb_prop in H as [H1 H2]. apply Nat.ltb_lt in H1. rewrite (IH idx H2).
  destruct (n =? 1) eqn:E; [apply Nat.eqb_eq in E; f_equal; lia|reflexivity].
Qed.
Lemma assign_ok n src dst m : forall i, i + m <= n -> broadcastable src dst = true -> assign_signals n src dst i m = Ok tt.
Proof. induction m as [|m IH]; intros i H B; [reflexivity|]. cbn [assign_signals]. assert (i <? n = true) as -> by (apply Nat.ltb_lt; lia). rewrite B. apply IH; [lia|exact B]. Qed.
Theorem values_first V (g : grid V) : stackdim g = 0 -> exists v, values g = Ok v /\ forall idx, inside idx (shape g) = true -> exists x, getitem g idx = Ok x /\ v idx = Some x.
Proof.
  intros SD. unfold values, getitem, shape. rewrite SD. cbn [insert_at firstn app skipn]. rewrite (assign_ok _ _ _ _ 0); [|lia|apply broadcast_refl]. cbn [bind].
  eexists. split; [reflexivity|]. intros idx I. rewrite I. destruct idx as [|j rest]; [discriminate|]. cbn [nth_error]. cbn in I. apply andb_prop in I as [J R]. apply Nat.ltb_lt in J.
  destruct (nth_error (signals g) j) as [s|] eqn:E; [|apply nth_error_None in E; lia]. exists (s (remove_at 0 (j :: rest))). split; [reflexivity|]. cbn [remove_at firstn app skipn]. now rewrite clip_inside.
Qed.
Theorem values_error V (g : grid V) a r : stackdim g = 1 -> sshape g = a :: r -> a <> List.length (signals g) -> a <> 1 -> a <> 0 -> signals g <> [] -> values g = Err ValueError.
Proof.
  intros SD H N1 N2 N3 E. unfold values, shape. rewrite SD, H. cbn [insert_at firstn app skipn]. destruct (signals g) as [|s l] eqn:L; [congruence|].
  cbn [List.length assign_signals broadcastable] in *. assert (0 <? a = true) as -> by (apply Nat.ltb_lt; lia).
  assert (a =? S (List.length l) = false) as -> by now apply Nat.eqb_neq. assert (a =? 1 = false) as -> by now apply Nat.eqb_neq. reflexivity.
Qed.
Theorem values_transposed V (g : grid V) m r : stackdim g = 1 -> sshape g = m :: r -> List.length (signals g) = m -> exists v, values g = Ok v /\
  forall i j rest s t, inside (i :: j :: rest) (shape g) = true -> nth_error (signals g) i = Some s -> nth_error (signals g) j = Some t ->
    v (i :: j :: rest) = Some (s (j :: rest)) /\ getitem g (i :: j :: rest) = Ok (t (i :: rest)).
Proof.
  intros SD H L. unfold values, getitem, shape. rewrite SD, H, L. cbn [insert_at firstn app skipn]. rewrite (assign_ok _ _ _ _ 0); [|lia|apply broadcast_refl]. cbn [bind].
  eexists. split; [reflexivity|]. intros i j rest s t I A B. cbv beta iota. rewrite A, I. cbn [nth_error]. rewrite B. cbn [remove_at firstn app skipn]. split; [|reflexivity].
  cbn [inside] in I. apply andb_prop in I as [_ I]. f_equal. f_equal. apply clip_inside. exact I.
Qed.
Theorem item V (g : grid V) idx k s : inside idx (shape g) = true -> nth_error idx (stackdim g) = Some k -> nth_error (signals g) k = Some s -> getitem g idx = Ok (s (firstn (stackdim g) idx ++ skipn (S (stackdim g)) idx)).
Proof. intros I K E. unfold getitem. now rewrite I, K, E. Qed.
Theorem getitem_error V (g : grid V) idx : stackdim g <= List.length (sshape g) -> (getitem g idx = Err IndexError <-> inside idx (shape g) = false).
Proof.
  intros D. unfold getitem. destruct (inside idx (shape g)) eqn:I; [|easy]. split; [|discriminate]. intros H. exfalso.
  assert (exists k, nth_error idx (stackdim g) = Some k /\ k < List.length (signals g)) as (k & K & L).
  { clear H. unfold shape, insert_at in I. revert idx I D. generalize (stackdim g) as d, (sshape g) as sh. induction d as [|d IH]; intros sh idx I D.
    - destruct idx as [|k idx]; [discriminate|]. cbn in I. apply andb_prop in I as [I _]. apply Nat.ltb_lt in I. exists k. auto.
    - destruct sh as [|n sh]; [cbn in D; lia|]. destruct idx as [|i idx]; [discriminate|]. cbn in I. apply andb_prop in I as [_ I]. cbn in D. apply (IH sh idx I). lia. }
  rewrite K in H. destruct (nth_error (signals g) k) eqn:E; [discriminate|]. apply nth_error_None in E. lia.
Qed.
Lemma nth_error_insert {A} (x : A) : forall d l k, d <= List.length l -> nth_error (insert_at d x l) k = if k <? d then nth_error l k else if k =? d then Some x else nth_error l (k - 1).
Proof.
  induction d as [|d IH]; intros l k H; unfold insert_at; cbn [firstn app skipn].
  - destruct k as [|k]; [reflexivity|]. cbn. now rewrite Nat.sub_0_r.
  - destruct l as [|a l]; [cbn in H; lia|]. cbn in H. destruct k as [|k]; [reflexivity|]. cbn [firstn skipn app nth_error]. fold (insert_at d x l). rewrite (IH l k) by lia.
    change (S k <? S d) with (k <? d). change (S k =? S d) with (k =? d). destruct (k <? d) eqn:E1; [reflexivity|]. destruct (k =? d) eqn:E2; [reflexivity|].
    apply Nat.ltb_ge in E1. apply Nat.eqb_neq in E2. destruct k as [|k]; [lia|]. cbn. now rewrite Nat.sub_0_r.
Qed.
Theorem stack V A (g : grid V) (axes : list A) (signal_axis : A) : stackdim g <= List.length axes ->
  exists a b, stack_dims g = [a; b] /\ a <> b /\ nth_error (insert_at (stackdim g) signal_axis axes) a = Some signal_axis /\ nth_error (insert_at (stackdim g) signal_axis axes) b = nth_error axes (stackdim_prev g).
Proof.
  intros H. unfold stack_dims. do 2 eexists. split; [reflexivity|]. rewrite !nth_error_insert by exact H. rewrite Nat.ltb_irrefl, Nat.eqb_refl. set (d := stackdim g) in *. set (p := stackdim_prev g).
  destruct (d <=? p) eqn:E; [apply Nat.leb_le in E|apply Nat.leb_gt in E].
  - split; [lia|]. split; [reflexivity|]. assert (S p <? d = false) as -> by (apply Nat.ltb_ge; lia). assert (S p =? d = false) as -> by (apply Nat.eqb_neq; lia). f_equal. lia.
  - split; [lia|]. split; [reflexivity|]. assert (p <? d = true) as -> by (apply Nat.ltb_lt; lia). reflexivity.
Qed.
Theorem signal_stack d p ndim : p < ndim -> (In p (other_dims ndim (signal_stack_dims d p)) <-> d < p).
Proof.
  intros N. unfold other_dims, signal_stack_dims. rewrite filter_In, in_seq. cbn [existsb]. rewrite Bool.orb_false_r, Bool.negb_true_iff, Bool.orb_false_iff. destruct (d <=? p) eqn:E; [apply Nat.leb_le in E|apply Nat.leb_gt in E]; rewrite !Nat.eqb_neq; lia.
Qed.
Theorem signal_range d p ndim : S p = ndim -> (exists x, In x (signal_stack_dims d p) /\ ndim <= x) <-> (d <= p \/ ndim <= d).
Proof.
  intros N. unfold signal_stack_dims. cbn [In]. destruct (d <=? p) eqn:E; [apply Nat.leb_le in E|apply Nat.leb_gt in E].
  - split; [auto|]. intros _. exists (S p). split; [auto|lia].
  - split; [intros (x & [H|[H|[]]] & L); lia|]. intros [H|H]; [lia|]. exists d. auto.
Qed.
Theorem signal_default ndim : signal_stack_dims 0 0 = [0; 1] /\ other_dims ndim (signal_stack_dims 0 0) = seq 2 (ndim - 2).
Proof.
  split; [reflexivity|]. unfold other_dims. destruct ndim as [|[|n]]; [reflexivity|reflexivity|]. cbn [seq filter signal_stack_dims existsb Nat.leb Nat.eqb orb negb]. replace (S (S n) - 2) with n by lia.
  assert (forall k, 2 <= k -> filter (fun i => negb (existsb (Nat.eqb i) [0; 1])) (seq k n) = seq k n) as G; [|apply G; lia].
  induction n as [|n IH]; intros k K; [reflexivity|]. cbn [seq filter]. destruct k as [|[|k]]; [lia|lia|]. cbn [existsb Nat.eqb orb negb]. f_equal. apply IH. lia.
Qed.
Theorem inplace_none V (op : V -> V) (g : grid V) : snd (inplace op g) = None /\ forall idx x, getitem g idx = Ok x -> getitem (fst (inplace op g)) idx = Ok (op x).
Proof.
  split; [reflexivity|]. intros idx x. unfold getitem, inplace, shape. cbn [fst signals sshape stackdim]. rewrite map_length. destruct (inside _ _); [|discriminate].
  destruct (nth_error idx (stackdim g)) as [k|]; [|discriminate]. rewrite nth_error_map. destruct (nth_error (signals g) k) as [s|]; [|discriminate]. cbn. intros H. congruence.
Qed.
