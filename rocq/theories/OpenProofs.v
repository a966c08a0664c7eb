(* Proofs about re-entrant opening. *)
From Verif Require Import OpenSpec.

Lemma size_pos p : (0 < size p)%nat.
Proof. destruct p; cbn; lia. Qed.

(* inside a context *)
Lemma exec_inside p : forall n h s, (size p <= n)%nat -> s_handle s = Some h ->
  exec n (Some h) p s = Some (mkState (Some h) (s_pending s ++ calls p) (s_next s), repeat (Used h) (uses p), raises p).
Proof.
  assert (K : forall h s, s_handle s = Some h -> s = mkState (Some h) (s_pending s ++ []) (s_next s)).
  { intros h [a b c] H. cbn in *. now rewrite app_nil_r, H. }
  induction p as [| |x|p1 IH1 p2 IH2|p IH|a p IH|c p IH]; intros n h s L H; (destruct n as [|n]; [cbn in L; lia|]);
    cbn [exec]; cbn [size] in L; unfold calls, uses, raises in *; cbn [inside fst snd repeat].
  - now rewrite <- (K h s H).
  - now rewrite <- (K h s H).
  - now rewrite <- (K h s H).
  - rewrite (IH1 n h s) by (lia || exact H). destruct (inside p1) as [[c1 u1] r1]. cbn [fst snd].
    destruct r1 as [x|]; [reflexivity|]. rewrite (IH2 n h) by (lia || reflexivity). destruct (inside p2) as [[c2 u2] r2].
    cbn [fst snd s_pending s_next]. rewrite <- app_assoc, <- repeat_app. reflexivity.
  - rewrite (IH n h s) by (lia || exact H). destruct (inside p) as [[c1 u1] r1]. reflexivity.
  - rewrite H. now apply IH; [lia|].
  - rewrite H. reflexivity.
Qed.
Lemma calls_size p c q : In (c, q) (calls p) -> (size q < size p)%nat.
Proof.
  unfold calls. revert c q. induction p as [| |x|p1 IH1 p2 IH2|p IH|a p IH|c0 p IH]; intros c q; cbn [inside size].
  - intros [].
  - intros [].
  - intros [].
  - destruct (inside p1) as [[c1 u1] r1]. destruct r1 as [x|]; cbn [fst].
    + intros I. apply IH1 in I. lia.
    + destruct (inside p2) as [[c2 u2] r2]. cbn [fst] in *. intros I. apply in_app_iff in I as [I|I]; [apply IH1 in I|apply IH2 in I]; lia.
  - destruct (inside p) as [[c1 u1] r1]. cbn [fst] in *. intros I. apply IH in I. lia.
  - intros I. apply IH in I. lia.
  - cbn. intros [[= <- <-]|[]]. lia.
Qed.

Definition fresh (s : fstate) : Prop := s_handle s = None /\ s_pending s = [].
Lemma history_app t1 : forall cur n t2 m, proper_history cur n t1 -> m = (n + count_opened t1)%nat ->
  proper_history None m t2 -> proper_history cur n (t1 ++ t2).
Proof.
  induction t1 as [|e t1 IH]; intros cur n t2 m H1 E H2.
  - cbn in *. subst. now rewrite Nat.add_0_r in H2.
  - destruct e; cbn [app proper_history count_opened] in *.
    + destruct H1 as (A & B & C). split; [exact A|]. split; [exact B|]. apply (IH _ _ _ m C); [lia|exact H2].
    + destruct H1 as (A & C). split; [exact A|]. now apply (IH _ _ _ m C).
    + destruct H1 as (A & C). split; [exact A|]. now apply (IH _ _ _ m C).
    + destruct H1 as (A & C). split; [exact A|]. now apply (IH _ _ _ m C).
Qed.
Lemma count_app t1 t2 : count_opened (t1 ++ t2) = (count_opened t1 + count_opened t2)%nat.
Proof. induction t1 as [|[]]; cbn; lia. Qed.
Lemma count_used h k : count_opened (repeat (Used h) k) = 0%nat.
Proof. induction k; cbn; auto. Qed.
Lemma history_used h k n t : proper_history (Some h) n t -> proper_history (Some h) n (repeat (Used h) k ++ t).
Proof. induction k; cbn; auto. Qed.

Definition good_run (s : fstate) (q : option (fstate * list event * outcome)) : Prop :=
  exists s' t r, q = Some (s', t, r) /\ fresh s' /\ proper_history None (s_next s) t /\
    s_next s' = (s_next s + count_opened t)%nat.
Lemma run_calls_good n l : (forall c p s, In (c, p) l -> fresh s -> good_run s (exec n None p s)) ->
  forall s, fresh s -> good_run s (run_calls (exec n None) l s).
Proof.
  induction l as [|[c p] l IH]; intros H s F; cbn [run_calls].
  - exists s, [], None. split; [reflexivity|]. split; [exact F|]. split; [reflexivity|cbn; lia].
  - destruct (H c p s) as (s1 & t1 & r1 & E & F1 & P1 & N1); [now left|exact F|]. rewrite E. destruct r1 as [x|].
    + exists s1, (Ran c :: t1), (Some x). split; [reflexivity|]. split; [exact F1|]. split; [now split|exact N1].
    + destruct (IH (fun c' p' s' I => H c' p' s' (or_intror I)) s1 F1) as (s2 & t2 & r2 & E2 & F2 & P2 & N2). rewrite E2.
      exists s2, (Ran c :: t1 ++ t2), r2. split; [reflexivity|]. split; [exact F2|]. split.
      * split; [reflexivity|]. apply (history_app t1 None _ _ (s_next s1) P1 N1 P2).
      * cbn [count_opened]. rewrite count_app. lia.
Qed.
Lemma exec_good n : forall p s, (size p <= n)%nat -> fresh s -> good_run s (exec n None p s).
Proof.
  induction n as [|n IH]; intros p s L F; [pose proof (size_pos p); lia|]. pose proof F as [F1 F2].
  assert (K0 : forall r, good_run s (Some (s, [], r))).
  { intros r. exists s, [], r. split; [reflexivity|]. split; [exact F|]. split; [reflexivity|cbn; lia]. }
  destruct p as [| |x|p q|p|a p|c p]; cbn [exec]; cbn [size] in L; try apply K0.
  - destruct (IH p s) as (s1 & t1 & r1 & E & G1 & P1 & N1); [lia|exact F|]. rewrite E. destruct r1 as [x|].
    + now exists s1, t1, (Some x).
    + destruct (IH q s1) as (s2 & t2 & r2 & E2 & G2 & P2 & N2); [lia|exact G1|]. rewrite E2.
      exists s2, (t1 ++ t2), r2. split; [reflexivity|]. split; [exact G2|]. split.
      * apply (history_app t1 None _ _ (s_next s1) P1 N1 P2).
      * rewrite count_app. lia.
  - destruct (IH p s) as (s1 & t1 & r1 & E & G1 & P1 & N1); [lia|exact F|]. rewrite E. now exists s1, t1, None.
  - rewrite F1. destruct (at_enter a) as [x|].
    + rewrite F2. cbn [run_calls]. rewrite app_nil_r. cbn [exn_or].
      exists (mkState (s_handle s) [] (s_next s)), [], (Some x). split; [reflexivity|]. split; [now split|]. split; [reflexivity|cbn; lia].
    + rewrite (exec_inside p n (s_next s)) by (lia || reflexivity). cbn [s_pending s_next s_handle]. rewrite F2. cbn [app].
      destruct (run_calls_good n (calls p)) with (s := mkState None [] (S (s_next s))) as (s2 & t2 & r2 & E2 & G2 & P2 & N2).
      { intros c q s' I F'. apply IH; [|exact F']. apply calls_size in I. lia. }
      { now split. }
      rewrite E2. eexists s2, _, _. split; [reflexivity|]. split; [exact G2|]. split.
      * split; [reflexivity|]. split; [reflexivity|]. rewrite <- app_assoc. apply history_used. split; [reflexivity|exact P2].
      * cbn [count_opened app]. rewrite !count_app, count_used. cbn [count_opened s_next] in *. lia.
  - rewrite F1. destruct (IH p s) as (s1 & t1 & r1 & E & G1 & P1 & N1); [lia|exact F|]. rewrite E.
    exists s1, (Ran c :: t1), r1. split; [reflexivity|]. split; [exact G1|]. split; [now split|exact N1].
Qed.

Lemma run_calls_order n l : forall s s' t r, run_calls (exec n None) l s = Some (s', t, r) -> runs_in_order l t r.
Proof.
  induction l as [|[c p] l IH]; intros s s' t r; cbn [run_calls].
  - intros [= <- <- <-]. constructor.
  - destruct (exec n None p s) as [[[s1 t1] [x|]]|] eqn:E; [| |discriminate].
    + intros [= <- <- <-]. eapply ran_raise. exact E.
    + destruct (run_calls (exec n None) l s1) as [[[s2 t2] r2]|] eqn:E2; [|discriminate]. intros [= <- <- <-].
      eapply ran_more; [exact E|]. eapply IH. exact E2.
Qed.
Lemma exec_history n p s : (size p <= n)%nat -> s_handle s = None -> s_pending s = [] ->
  exists s' t r, exec n None p s = Some (s', t, r) /\ s_handle s' = None /\ s_pending s' = [] /\
    proper_history None (s_next s) t.
Proof.
  intros L A B. destruct (exec_good n p s L (conj A B)) as (s' & t & r & E & [F1 F2] & P & _). now exists s', t, r.
Qed.
(* one outermost context *)
Lemma exec_outer n a p s s' t r : (size p < n)%nat -> s_handle s = None -> s_pending s = [] ->
  exec n None (Open a p) s = Some (s', t, r) ->
  match at_enter a with
  | Some x => s' = s /\ t = [] /\ r = Some x
  | None =>
      exists t2 r2, 
        t = Opened (s_next s) (at_params a) :: repeat (Used (s_next s)) (uses p) ++ Closed (s_next s) :: t2 /\
        runs_in_order (calls p) t2 r2 /\
        r = exn_or r2 (exn_or (at_exit a) (raises p))
  end.
Proof.
  intros L A B. destruct n as [|n]; [lia|]. cbn [exec]. rewrite A. destruct (at_enter a) as [x|].
  - rewrite B. cbn [run_calls]. rewrite app_nil_r. intros [= <- <- <-]. destruct s as [h q m]. cbn in *. now subst.
  - rewrite (exec_inside p n (s_next s)) by (lia || reflexivity). cbn [s_pending s_next s_handle]. rewrite B. cbn [app].
    destruct (run_calls (exec n None) (calls p) _) as [[[s2 t2] r2]|] eqn:E; [|discriminate]. intros [= <- <- <-].
    exists t2, r2. split; [now rewrite <- app_assoc|]. split; [|reflexivity]. exact (run_calls_order _ _ _ _ _ _ E).
Qed.
(* without a raising call all of them run *)
Lemma order_all l t : runs_in_order l t None ->
  exists ts, length ts = length l /\ t = concat (map (fun '((c, _), u) => Ran c :: u) (combine l ts)).
Proof.
  intros H. remember None as r eqn:Er. induction H as [|c p l t1 t2 r n s s' E H IH|]; [now exists []| |discriminate].
  destruct (IH Er) as (ts & L & ->). exists (t1 :: ts). split; [cbn; now rewrite L|]. reflexivity.
Qed.
(* more fuel changes nothing *)
Lemma run_calls_mono (f g : prog -> fstate -> option (fstate * list event * outcome)) l :
  (forall p s q, f p s = Some q -> g p s = Some q) -> forall s q, run_calls f l s = Some q -> run_calls g l s = Some q.
Proof.
  intros H. induction l as [|[c p] l IH]; intros s q; cbn [run_calls]; [auto|].
  destruct (f p s) as [[[s1 t1] r1]|] eqn:E; [|discriminate]. rewrite (H _ _ _ E). destruct r1; [auto|].
  destruct (run_calls f l s1) as [[[s2 t2] r2]|] eqn:E2; [|discriminate]. now rewrite (IH _ _ E2).
Qed.
Lemma exec_mono n : forall m env p s q, (n <= m)%nat -> exec n env p s = Some q -> exec m env p s = Some q.
Proof.
  induction n as [|n IH]; intros m env p s q L; [discriminate|]. destruct m as [|m]; [lia|]. 
  assert (L' : (n <= m)%nat) by lia. clear L. cbn [exec]. destruct p as [| |x|p q0|p|a p|c p]; auto.
  - destruct (exec n env p s) as [[[s1 t1] r1]|] eqn:E; [|discriminate]. rewrite (IH m _ _ _ _ L' E). destruct r1; [auto|].
    destruct (exec n env q0 s1) as [[[s2 t2] r2]|] eqn:E2; [|discriminate]. now rewrite (IH m _ _ _ _ L' E2).
  - destruct (exec n env p s) as [[[s1 t1] r1]|] eqn:E; [|discriminate]. now rewrite (IH m _ _ _ _ L' E).
  - destruct (s_handle s) as [h|]; [now apply IH|].
    assert (R : forall l s q, run_calls (exec n None) l s = Some q -> run_calls (exec m None) l s = Some q).
    { intros l. apply run_calls_mono. intros p' s' q'. now apply IH. }
    destruct (at_enter a) as [x|].
    + destruct (run_calls (exec n None) _ _) as [[[s2 t2] r2]|] eqn:E; [|discriminate]. now rewrite (R _ _ _ E).
    + destruct (exec n (Some (s_next s)) p _) as [[[s1 t1] r1]|] eqn:E; [|discriminate]. rewrite (IH m _ _ _ _ L' E).
      cbn [s_pending s_handle s_next].
      destruct (run_calls (exec n None) _ _) as [[[s2 t2] r2]|] eqn:E2; [|discriminate]. now rewrite (R _ _ _ E2).
  - destruct (s_handle s); [auto|]. destruct (exec n None p s) as [[[s1 t1] r1]|] eqn:E; [|discriminate]. now rewrite (IH m _ _ _ _ L' E).
Qed.
Lemma history_counts t : forall cur n, proper_history cur n t ->
  (count_opened t + match cur with Some _ => 1 | None => 0 end = length (filter (fun e => match e with Closed _ => true | _ => false end) t))%nat.
Proof.
  induction t as [|e t IH]; intros cur n H; cbn [proper_history] in H.
  - now subst.
  - destruct e; cbn [count_opened filter].
    + destruct H as (-> & _ & H). apply IH in H. cbn in *. lia.
    + destruct H as (-> & H). now apply IH in H.
    + destruct H as (-> & H). apply IH in H. cbn in *. lia.
    + destruct H as (-> & H). now apply IH in H.
Qed.
