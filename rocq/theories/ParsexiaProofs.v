From Verif Require Import ListToolsModel ListToolsProofs BaseProofs ParsexiaModel ParsexiaSpec.
From Coq Require Import Lia Permutation Sorted.
Local Open Scope list_scope.
Local Open Scope nat_scope.

Ltac cmp := repeat match goal with
  | H : (_ <? _) = true |- _ => apply Nat.ltb_lt in H
  | H : (_ <? _) = false |- _ => apply Nat.ltb_ge in H
  | H : (_ <=? _) = true |- _ => apply Nat.leb_le in H
  | H : (_ <=? _) = false |- _ => apply Nat.leb_gt in H
  end.
Definition file_le (a b : file) : Prop :=
  scanname a < scanname b \/ (scanname a = scanname b /\ (detector a < detector b \/ (detector a = detector b /\
   (scannumber a < scannumber b \/ (scannumber a = scannumber b /\ line a <= line b))))).
Lemma file_leb_spec a b : file_leb a b = true <-> file_le a b.
Proof.
  unfold file_leb, file_le. repeat match goal with |- context [if ?c then _ else _] => destruct c eqn:? end; cmp; split; intros H; try reflexivity; try discriminate; try lia.
Qed.
Lemma file_leb_total a b : file_leb a b = true \/ file_leb b a = true.
Proof. rewrite !file_leb_spec. unfold file_le. lia. Qed.
Lemma file_leb_trans a b c : file_leb a b = true -> file_leb b c = true -> file_leb a c = true.
Proof. rewrite !file_leb_spec. unfold file_le. lia. Qed.

(* a list sorted by a key is the concatenation of its parts *)
Section parts.
Variable key : file -> nat.
Definition part (l : list file) (d : nat) : list file := filter (fun f => key f =? d) l.
Lemma split_first l d : StronglySorted (fun a b => key a <= key b) l -> (forall f, In f l -> d <= key f) -> l = part l d ++ filter (fun f => negb (key f =? d)) l.
Proof.
  induction l as [|f l IH]; intros S H; [reflexivity|]. inversion S as [|? ? S' F]; subst. cbn. destruct (key f =? d) eqn:E; cbn.
  - f_equal. apply IH; [exact S'|]. intros g G. apply H. now right.
  - apply Nat.eqb_neq in E. pose proof (H f (or_introl eq_refl)) as Hf. rewrite Forall_forall in F.
    assert (forall g, In g l -> key g =? d = false) as N by (intros g G; apply Nat.eqb_neq; specialize (F g G); lia).
    assert (filter (fun f0 => key f0 =? d) l = []) as ->.
    { clear - N. induction l as [|g l IH]; [reflexivity|]. cbn. rewrite (N g (or_introl eq_refl)). apply IH. intros h Hh. apply N. now right. }
    cbn. f_equal. clear - N. induction l as [|g l IH]; [reflexivity|]. cbn. rewrite (N g (or_introl eq_refl)). cbn. f_equal. apply IH. intros h Hh. apply N. now right.
Qed.
Lemma filter_SS {A} (R : A -> A -> Prop) (p : A -> bool) l : StronglySorted R l -> StronglySorted R (filter p l).
Proof.
  induction 1 as [|a l S IH F]; cbn; [constructor|]. destruct (p a); [|exact IH]. constructor; [exact IH|]. rewrite Forall_forall in *. intros x X. apply F. now apply filter_In in X.
Qed.
Lemma filter_filter_eq (p q : file -> bool) l : (forall x, p x = true -> q x = true) -> filter p (filter q l) = filter p l.
Proof.
  intros H. induction l as [|a l IH]; [reflexivity|]. cbn. destruct (q a) eqn:Q; cbn; [destruct (p a); now rewrite IH|]. destruct (p a) eqn:P; [rewrite (H a P) in Q; discriminate|exact IH].
Qed.
Lemma parts ds : forall l, StronglySorted lt ds -> StronglySorted (fun a b => key a <= key b) l -> (forall f, In f l -> In (key f) ds) -> l = concat (map (part l) ds).
Proof.
  induction ds as [|d ds IH]; intros l D S H.
  - destruct l as [|f l]; [reflexivity|]. destruct (H f (or_introl eq_refl)).
  - inversion D as [|? ? D' F]; subst. rewrite Forall_forall in F. cbn [map concat].
    rewrite (split_first l d S) at 1.
    + f_equal. rewrite (IH (filter (fun f => negb (key f =? d)) l)) at 1.
      * f_equal. apply map_ext_in. intros e E. apply filter_filter_eq. intros f Hf. apply Nat.eqb_eq in Hf. specialize (F e E). apply Bool.negb_true_iff, Nat.eqb_neq. lia.
      * exact D'.
      * now apply filter_SS.
      * intros f Hf. apply filter_In in Hf as [Hf N]. apply Bool.negb_true_iff, Nat.eqb_neq in N. destruct (H f Hf); [congruence|assumption].
    + intros f Hf. destruct (H f Hf) as [<- | I]; [lia|]. specialize (F _ I). lia.
Qed.
End parts.

Lemma chunks_concat n (ls : list (list file)) : (forall l, In l ls -> List.length l = n) -> map (fun k => firstn n (skipn (k * n) (concat ls))) (seq 0 (List.length ls)) = ls.
Proof.
  induction ls as [|l ls IH]; intros H; [reflexivity|]. cbn [List.length seq map concat]. f_equal.
  - cbn [Nat.mul skipn]. rewrite firstn_app, (H l (or_introl eq_refl)), Nat.sub_diag. cbn [firstn]. rewrite app_nil_r. rewrite <- (H l (or_introl eq_refl)). apply firstn_all.
  - rewrite <- seq_shift, map_map. rewrite <- IH at 2 by (intros m M; apply H; now right). apply map_ext. intros k. f_equal.
    cbn [Nat.mul]. rewrite skipn_app, (H l (or_introl eq_refl)). replace (n + k * n - n) with (k * n) by lia. rewrite skipn_all2 by (rewrite (H l (or_introl eq_refl)); lia). reflexivity.
Qed.
Lemma concat_length n (ls : list (list file)) : (forall l, In l ls -> List.length l = n) -> List.length (concat ls) = List.length ls * n.
Proof. induction ls as [|l ls IH]; intros H; [reflexivity|]. cbn. rewrite app_length, IH, (H l (or_introl eq_refl)); [reflexivity|]. intros m M. apply H. now right. Qed.
Lemma group_concat n ls : (forall l, In l ls -> List.length l = n) -> 0 < n -> ls <> [] -> group (concat ls) (List.length ls) = Ok ls.
Proof.
  intros H N E. unfold group. rewrite (concat_length n ls H). set (k := List.length ls). assert (0 < k) by (unfold k; destruct ls; [congruence|cbn; lia]).
  replace (k * n / k) with n by (rewrite Nat.mul_comm, Nat.div_mul; lia). destruct (n =? 0) eqn:Z; [apply Nat.eqb_eq in Z; lia|].
  replace ((k * n + n - 1) / n) with k; [f_equal; now apply chunks_concat|].
  replace (k * n + n - 1) with (n - 1 + k * n) by lia. rewrite Nat.div_add by lia. rewrite Nat.div_small by lia. reflexivity.
Qed.
(* files grouped by a key *)
Lemma group_key key l ds n : StronglySorted lt ds -> ds <> [] -> StronglySorted (fun a b => key a <= key b) l -> (forall f, In f l -> In (key f) ds) ->
  (forall d, In d ds -> List.length (part key l d) = n) -> 0 < n -> group l (List.length ds) = Ok (map (part key l) ds).
Proof.
  intros D E S H C N. rewrite (parts key ds l D S H) at 1. rewrite <- (map_length (part key l) ds). apply (group_concat n); [|exact N|].
  - intros m M. apply in_map_iff in M as (d & <- & I). auto.
  - destruct ds; [congruence|discriminate].
Qed.
Lemma SS_impl {A} (R R' : A -> A -> Prop) l : (forall a b, In a l -> In b l -> R a b -> R' a b) -> StronglySorted R l -> StronglySorted R' l.
Proof.
  intros H S. induction S as [|a l S IH F]; constructor.
  - apply IH. intros x y X Y. apply H; now right.
  - rewrite Forall_forall in *. intros x X. apply H; [now left|now right|auto].
Qed.
Lemma sorted_files l : Permutation (sorted file_leb l) l /\ StronglySorted file_le (sorted file_leb l).
Proof.
  split; [apply sorted_perm|]. eapply SS_impl; [|apply (sorted_sorted file_leb file_leb_total file_leb_trans l)]. intros a b _ _ H. now apply file_leb_spec.
Qed.
Lemma filter_perm_length {A} (p : A -> bool) l l' : Permutation l l' -> List.length (filter p l) = List.length (filter p l').
Proof. induction 1; cbn; try congruence; [destruct (p x); cbn; congruence|destruct (p x), (p y); reflexivity]. Qed.

(* one scan name: grouped per detector *)
Theorem group_detectors l ds n : (forall f g, In f l -> In g l -> scanname f = scanname g) -> StronglySorted lt ds -> ds <> [] -> (forall f, In f l -> In (detector f) ds) ->
  (forall d, In d ds -> List.length (filter (fun f => detector f =? d) l) = n) -> 0 < n ->
  group (sorted file_leb l) (List.length ds) = Ok (map (fun d => filter (fun f => detector f =? d) (sorted file_leb l)) ds).
Proof.
  intros O D E H C N. destruct (sorted_files l) as [P S]. apply (group_key detector _ _ n); try assumption.
  - eapply SS_impl; [|exact S]. intros a b A B R. assert (scanname a = scanname b) by (apply O; eapply Permutation_in; eassumption). unfold file_le in R. lia.
  - intros f F. apply H. eapply Permutation_in; eassumption.
  - intros d I. unfold part. rewrite (filter_perm_length _ _ _ P). auto.
Qed.
(* as many scan names as detectors: grouped per scan name *)
Theorem group_scans l names n : StronglySorted lt names -> names <> [] -> (forall f, In f l -> In (scanname f) names) ->
  (forall d, In d names -> List.length (filter (fun f => scanname f =? d) l) = n) -> 0 < n ->
  group (sorted file_leb l) (List.length names) = Ok (map (fun d => filter (fun f => scanname f =? d) (sorted file_leb l)) names).
Proof.
  intros D E H C N. destruct (sorted_files l) as [P S]. apply (group_key scanname _ _ n); try assumption.
  - eapply SS_impl; [|exact S]. intros a b A B R. unfold file_le in R. lia.
  - intros f F. apply H. eapply Permutation_in; eassumption.
  - intros d I. unfold part. rewrite (filter_perm_length _ _ _ P). auto.
Qed.
Theorem group_few l ndet : List.length l < ndet -> group l ndet = Err ValueError.
Proof. intros H. unfold group. rewrite Nat.div_small by exact H. reflexivity. Qed.
Theorem group_all l ndet gs : group l ndet = Ok gs -> concat gs = l.
Proof.
  unfold group. set (n := List.length l / ndet). destruct (n =? 0) eqn:Z; [discriminate|]. apply Nat.eqb_neq in Z. intros H.
  assert (gs = map (fun k => firstn n (skipn (k * n) l)) (seq 0 ((List.length l + n - 1) / n))) as -> by congruence. clear H.
  assert (forall m, concat (map (fun k => firstn n (skipn (k * n) l)) (seq 0 m)) = firstn (m * n) l) as G.
  { induction m as [|m IH]; [reflexivity|]. rewrite seq_S, map_app, concat_app, IH. cbn [map concat Nat.add Nat.mul]. rewrite app_nil_r.
    rewrite (Nat.add_comm n). generalize (m * n) as a. intros a. clear. clearbody n. revert l. induction a as [|a IH]; intros l; [reflexivity|]. destruct l; cbn; [now rewrite !firstn_nil|]. f_equal. apply IH. }
  rewrite G. apply firstn_all2. pose proof (Nat.div_mod (List.length l + n - 1) n Z). pose proof (Nat.mod_upper_bound (List.length l + n - 1) n Z). nia.
Qed.
Theorem group_number l ndet gs : group l ndet = Ok gs -> 0 < ndet -> ndet <= List.length gs.
Proof.
  unfold group. set (n := List.length l / ndet). destruct (n =? 0) eqn:Z; [discriminate|]. apply Nat.eqb_neq in Z. intros H N.
  assert (gs = map (fun k => firstn n (skipn (k * n) l)) (seq 0 ((List.length l + n - 1) / n))) as -> by congruence. rewrite map_length, seq_length.
  apply Nat.div_le_lower_bound; [exact Z|]. pose proof (Nat.mul_div_le (List.length l) ndet ltac:(lia)). fold n in H0. nia.
Qed.

(* the whole *)
Lemma detnums_kept exclude x : flat_map (fun x => match x with Spectra f => [detector f] | Stat => [] end) (filter (fun x => negb (excluded exclude x)) x) = kept exclude x.
Proof.
  unfold kept. induction x as [|a x IH]; [reflexivity|]. destruct a as [f|]; cbn.
  - destruct (existsb (Nat.eqb (detector f)) exclude); cbn; [exact IH|]. f_equal. exact IH.
  - exact IH.
Qed.
Lemma parse_eq x0 xs exclude dt add fit single found : parse_xia (Some (x0 :: xs)) exclude dt add fit single found =
  let ds := kept exclude x0 in
  let n := List.length ds in
  let add' := add && (2 <=? n) in
  let dt' := dt && (0 <? n) && ((2 <=? n) || single) in
  let files := if add' || dt' then sorted file_leb (found add') else sorted file_leb (flat_map (flat_map (fun x => match x with Spectra f => [f] | Stat => [] end)) (map (filter (fun x => negb (excluded exclude x))) (x0 :: xs))) in
  if negb (fit && (0 <? n)) && negb dt' && negb add' then Ok ([[]], ds) else if add' then Ok ([files], ds) else let! g := group files n in Ok (g, ds).
Proof.
  unfold parse_xia. cbn [map bind]. rewrite detnums_kept. set (ds := kept exclude x0). cbv zeta. set (n := List.length ds).
  assert ((if n <? 2 then false else add) = add && (2 <=? n)) as ->.
  { destruct (n <? 2) eqn:E; [apply Nat.ltb_lt in E|apply Nat.ltb_ge in E]; destruct (2 <=? n) eqn:F; try apply Nat.leb_le in F; try apply Nat.leb_gt in F; try lia; destruct add; reflexivity. }
  assert ((if n =? 0 then false else if (n <? 2) && negb single then false else dt) = dt && (0 <? n) && ((2 <=? n) || single)) as ->.
  { destruct n as [|[|n]]; cbn; destruct single, dt; reflexivity. }
  assert ((if n =? 0 then false else fit) = fit && (0 <? n)) as -> by (destruct n; cbn; destruct fit; reflexivity).
  destruct (negb (fit && (0 <? n)) && negb (dt && (0 <? n) && ((2 <=? n) || single)) && negb (add && (2 <=? n))); [reflexivity|]. destruct (add && (2 <=? n)); reflexivity.
Qed.
Theorem parse_detectors x0 xs exclude dt add fit single found out ds : parse_xia (Some (x0 :: xs)) exclude dt add fit single found = Ok (out, ds) ->
  forall d, In d ds <-> (exists f, In (Spectra f) x0 /\ detector f = d) /\ ~ In d exclude.
Proof.
  rewrite parse_eq. cbv zeta. intros H. assert (ds = kept exclude x0) as ->.
  { destruct (negb _ && negb _ && negb _) in H; [congruence|]. destruct (add && _) in H; [congruence|]. match type of H with bind ?z _ = _ => destruct z as [g|e] end; cbn [bind] in H; congruence. }
  intros d. unfold kept. rewrite filter_In, in_flat_map, Bool.negb_true_iff. split.
  - intros [(x & X & I) E]. destruct x as [f|]; [|destruct I]. destruct I as [<- | []]. split; [eauto|]. intros J. assert (existsb (Nat.eqb (detector f)) exclude = true) by (apply existsb_exists; exists (detector f); split; [exact J|apply Nat.eqb_refl]). congruence.
  - intros [(f & F & <-) N]. split; [exists (Spectra f); split; [exact F|now left]|]. destruct (existsb (Nat.eqb (detector f)) exclude) eqn:E; [|reflexivity]. apply existsb_exists in E as (y & Y & E). apply Nat.eqb_eq in E. subst y. contradiction.
Qed.
Theorem parse_sum x0 xs exclude dt fit single found : 2 <= List.length (kept exclude x0) ->
  parse_xia (Some (x0 :: xs)) exclude dt true fit single found = Ok ([sorted file_leb (found true)], kept exclude x0).
Proof.
  intros H. rewrite parse_eq. cbv zeta. assert ((2 <=? List.length (kept exclude x0)) = true) as -> by now apply Nat.leb_le. cbn [andb orb negb]. now rewrite Bool.andb_false_r.
Qed.
Theorem parse_single x0 xs exclude add fit found d : kept exclude x0 = [d] -> fit = true ->
  parse_xia (Some (x0 :: xs)) exclude true add fit false found = parse_xia (Some (x0 :: xs)) exclude false false fit true found.
Proof. intros H ->. rewrite !parse_eq. cbv zeta. rewrite H. cbn [List.length Nat.ltb Nat.leb andb orb negb]. rewrite Bool.andb_false_r. reflexivity. Qed.
Theorem parse_nothing x0 xs exclude dt add fit single found : kept exclude x0 = [] -> parse_xia (Some (x0 :: xs)) exclude dt add fit single found = Ok ([[]], []).
Proof. intros H. rewrite parse_eq. cbv zeta. rewrite H. cbn [List.length Nat.ltb Nat.leb]. rewrite !Bool.andb_false_r. reflexivity. Qed.
Theorem parse_corrected x0 xs exclude fit found ds : kept exclude x0 = ds -> ds <> [] ->
  parse_xia (Some (x0 :: xs)) exclude true false fit true found = (let! g := group (sorted file_leb (found false)) (List.length ds) in Ok (g, ds)).
Proof.
  intros H N. rewrite parse_eq. cbv zeta. rewrite H. destruct ds as [|d ds]; [congruence|]. cbn [List.length Nat.ltb Nat.leb andb orb negb]. rewrite Bool.orb_true_r. cbn [negb]. rewrite !Bool.andb_false_r. reflexivity.
Qed.
Theorem parse_raw x0 xs exclude single found ds l : kept exclude x0 = ds -> ds <> [] ->
  l = flat_map (flat_map (fun x => match x with Spectra f => if existsb (Nat.eqb (detector f)) exclude then [] else [f] | Stat => [] end)) (x0 :: xs) ->
  parse_xia (Some (x0 :: xs)) exclude false false true single found = (let! g := group (sorted file_leb l) (List.length ds) in Ok (g, ds)).
Proof.
  intros H N ->. rewrite parse_eq. cbv zeta. rewrite H. destruct ds as [|d ds]; [congruence|]. cbn [List.length Nat.ltb Nat.leb andb orb negb]. f_equal. f_equal. f_equal.
  rewrite !flat_map_concat_map, map_map. f_equal. apply map_ext. intros x. induction x as [|a x IH]; [reflexivity|]. destruct a as [f|]; cbn.
  - destruct (existsb (Nat.eqb (detector f)) exclude); cbn; [exact IH|]. f_equal. exact IH.
  - exact IH.
Qed.
