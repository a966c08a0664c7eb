From Verif Require Import ListToolsModel ListToolsProofs LutProofs.
From Verif Require Export SumdetPlanProofs.
From Coq Require Import Sorting.Permutation Sorting.Sorted.
Local Open Scope list_scope.
Local Open Scope nat_scope.

(* ---- values do not depend on more than the leaves ---- *)
Section ArgInd.
Context {A : Type} (P : arg A -> Prop) (HL : forall x, P (Leaf x)) (HS : forall f l, Forall P l -> P (Slice f l)).
Fixpoint arg_ind2 (a : arg A) : P a :=
  match a with
  | Leaf x => HL x
  | Slice f l => HS f l ((fix go (l : list (arg A)) : Forall P l := match l with [] => Forall_nil P | b :: l' => Forall_cons b (arg_ind2 b) (go l') end) l)
  end.
End ArgInd.
Lemma eval_ext A leaf leaf' fluxref flux flux' dtcor other (a : arg A) : (forall x, leaf x = leaf' x) -> (forall i, flux i = flux' i) ->
  eval A leaf fluxref flux dtcor other a = eval A leaf' fluxref flux' dtcor other a.
Proof.
  intros HL HF. induction a as [x|f l IH] using arg_ind2; [apply HL|]. cbn [eval].
  assert (mapM (eval A leaf fluxref flux dtcor other) l = mapM (eval A leaf' fluxref flux' dtcor other) l) as -> by (apply mapM_ext; rewrite Forall_forall in IH; exact IH).
  destruct (mapM _ l) as [xs|e]; cbn [bind]; [|reflexivity]. destruct f; try reflexivity. cbn [apply]. destruct xs as [|x [|y xs]]; try reflexivity. unfold xrfnorm. rewrite HF. reflexivity.
Qed.

(* ---- picking ---- *)
Lemma pick_nth {B} ind (l l' : list B) : pick ind l = Ok l' -> List.length l' = List.length ind /\ forall j i, nth_error ind j = Some i -> nth_error l' j = nth_error l i /\ i < List.length l.
Proof.
  revert l'. induction ind as [|i ind IH]; intros l' H; cbn [pick mapM] in H; unfold pick in *; cbn [mapM] in H.
  - assert (l' = []) as -> by congruence. split; [reflexivity|]. intros [|j] i E; discriminate.
  - destruct (nth_error l i) as [x|] eqn:E; cbn [bind] in H; [|discriminate]. destruct (mapM _ ind) as [r|e] eqn:M; cbn [bind] in H; [|discriminate]. assert (l' = x :: r) as -> by congruence.
    destruct (IH r eq_refl) as [L N]. split; [cbn [List.length]; lia|]. intros [|j] i' E'; cbn [nth_error] in *.
    + assert (i' = i) as -> by congruence. split; [congruence|]. apply nth_error_Some. congruence.
    + apply N, E'.
Qed.
Lemma pick_ok {B} ind (l : list B) : (forall i, In i ind -> i < List.length l) -> exists l', pick ind l = Ok l'.
Proof.
  unfold pick. induction ind as [|i ind IH]; intro H; cbn [mapM]; [eexists; reflexivity|]. destruct (nth_error l i) as [x|] eqn:E; [|apply nth_error_None in E; specialize (H i (or_introl eq_refl)); lia].
  cbn [bind]. destruct (IH (fun i Hi => H i (or_intror Hi))) as [r ->]. eexists. reflexivity.
Qed.
Lemma pick_map {B C} (f : B -> C) ind l l' : pick ind l = Ok l' -> pick ind (map f l) = Ok (map f l').
Proof.
  unfold pick. revert l'. induction ind as [|i ind IH]; intros l' H; cbn [mapM] in *.
  - assert (l' = []) as -> by congruence. reflexivity.
  - rewrite nth_error_map. destruct (nth_error l i) as [x|]; cbn [bind option_map] in *; [|discriminate]. destruct (mapM (fun i => match nth_error l i with Some x => Ok x | None => Err IndexError end) ind) as [r|e]; cbn [bind] in H; [|discriminate].
    assert (l' = x :: r) as -> by congruence. rewrite (IH r eq_refl). reflexivity.
Qed.

(* ---- the order ---- *)
Lemma combine_fst {B C} (l : list B) (m : list C) : List.length l = List.length m -> map fst (combine l m) = l.
Proof. revert m. induction l as [|x l IH]; intros [|y m] H; try discriminate; [reflexivity|]. cbn [combine map fst]. f_equal. apply IH. cbn in H. lia. Qed.
Lemma order_perm values : Permutation (order values) (seq 0 (List.length values)).
Proof.
  unfold order. eapply Permutation_trans; [apply Permutation_map; apply sorted_perm|]. rewrite combine_fst by (rewrite seq_length; reflexivity). apply Permutation_refl.
Qed.
Lemma order_lt values i : In i (order values) -> i < List.length values.
Proof. intro H. apply (Permutation_in _ (order_perm values)) in H. apply in_seq in H. lia. Qed.
Definition entry_le (a b : nat * Qc) : bool := Qc_leb (snd a) (snd b).
Lemma order_entries values e : In e (sorted entry_le (combine (seq 0 (List.length values)) values)) -> nth_error values (fst e) = Some (snd e).
Proof.
  intro H. apply (Permutation_in _ (sorted_perm _ _)) in H. apply In_nth_error in H. destruct H as [j H]. rewrite nth_combine_seq in H. destruct (nth_error values j) as [x|] eqn:E; [|discriminate]. cbn [option_map Nat.add] in H.
  assert (e = (j, x)) as -> by (inversion H; reflexivity). exact E.
Qed.
Lemma pick_order values : pick (order values) values = Ok (map snd (sorted entry_le (combine (seq 0 (List.length values)) values))).
Proof.
  unfold order. fold entry_le. pose proof (order_entries values) as H. revert H. generalize (sorted entry_le (combine (seq 0 (List.length values)) values)). intros l H. unfold pick.
  induction l as [|e l IH]; [reflexivity|]. cbn [map mapM]. rewrite (H e (or_introl eq_refl)). cbn [bind]. rewrite IH by (intros x Hx; apply H; right; exact Hx). reflexivity.
Qed.
Lemma order_sorted values : exists v, pick (order values) values = Ok v /\ Permutation v values /\ StronglySorted (fun a b => (a <= b)%Qc) v.
Proof.
  rewrite pick_order. eexists. split; [reflexivity|]. split.
  - eapply Permutation_trans; [apply Permutation_map; apply sorted_perm|]. assert (forall (B C : Type) (l : list B) (m : list C), List.length l = List.length m -> map snd (combine l m) = m) as -> by (intros B C; induction l as [|x l IH]; intros [|y m] E; try discriminate; [reflexivity|]; cbn [combine map snd]; f_equal; apply IH; cbn in E; lia). apply Permutation_refl. apply seq_length.
  - assert (StronglySorted (fun a b => entry_le a b = true) (sorted entry_le (combine (seq 0 (List.length values)) values))) as S.
    { apply sorted_sorted; [intros a b; apply Qc_leb_total|intros a b c; apply Qc_leb_trans]. }
    induction S as [|e l S IH F]; [constructor|]. cbn [map]. constructor; [exact IH|]. rewrite Forall_forall in *. intros x Hx. apply in_map_iff in Hx. destruct Hx as (e' & <- & He). apply Qc_leb_le. apply (F e' He).
Qed.

(* ---- export of sorted images ---- *)
Section Export.
Context {F : Type}.
Variable file : F -> result num.
Variable fluxref : nat -> result num.
Variable fluxdata : key * string.
Variable dtcor : nat -> Z -> num.
Variable other : nat -> list num -> result num.
Variable ind : list nat.
Definition permuted (d d' : list ((key * string) * list num)) : Prop := Forall2 (fun e e' => fst e' = fst e /\ pick ind (snd e) = Ok (snd e')) d d'.
Lemma data_decides : decides_eq data_eqb.
Proof.
  intros [a s] [b t]. unfold data_eqb. cbn [fst snd]. rewrite andb_true_iff, (key_decides a b), String.eqb_eq. split; [intros [-> ->]; reflexivity|intro H; inversion H; split; reflexivity].
Qed.
Lemma permuted_lookup d d' p : permuted d d' -> match lookup data_eqb p d with Some l => exists l', lookup data_eqb p d' = Some l' /\ pick ind l = Ok l' | None => lookup data_eqb p d' = None end.
Proof.
  induction 1 as [|[q l] [q' l'] d d' [E H] R IH]; [reflexivity|]. cbn [fst snd] in *. subst q'. cbn [lookup]. destruct (data_eqb p q); [exists l'; split; [reflexivity|exact H]|exact IH].
Qed.
Lemma permuted_dataset d d' j i p : permuted d d' -> nth_error ind j = Some i -> dataset d' j p = dataset d i p.
Proof.
  intros R E. unfold dataset. pose proof (permuted_lookup d d' p R) as H. destruct (lookup data_eqb p d) as [l|].
  - destruct H as (l' & -> & H). destruct (pick_nth ind l l' H) as [_ N]. destruct (N j i E) as [-> _]. reflexivity.
  - rewrite H. reflexivity.
Qed.
Lemma permuted_value d d' j i a : permuted d d' -> nth_error ind j = Some i -> value_at F file fluxref fluxdata dtcor other d' j a = value_at F file fluxref fluxdata dtcor other d i a.
Proof.
  intros R E. unfold value_at. apply eval_ext.
  - intros [f|k l]; [reflexivity|]. cbn [read]. apply permuted_dataset; assumption.
  - intro. apply permuted_dataset; assumption.
Qed.
Lemma permuted_assign d d' p l l' : permuted d d' -> pick ind l = Ok l' -> permuted (assign data_eqb p l d) (assign data_eqb p l' d').
Proof.
  intros R H. induction R as [|[q m] [q' m'] d d' [E M] R IH]; cbn [assign].
  - constructor; [split; [reflexivity|exact H]|constructor].
  - cbn [fst snd] in *. subst q'. destruct (data_eqb p q); constructor; try (split; [reflexivity|assumption]); [exact R|exact IH].
Qed.
Lemma mapM_nth {B C} (f : B -> result C) l r : mapM f l = Ok r -> List.length r = List.length l /\ forall j x, nth_error l j = Some x -> exists y, f x = Ok y /\ nth_error r j = Some y.
Proof.
  revert r. induction l as [|x l IH]; intros r H; cbn [mapM] in H.
  - assert (r = []) as -> by congruence. split; [reflexivity|]. intros [|j] x E; discriminate.
  - destruct (f x) as [y|e] eqn:E; cbn [bind] in H; [|discriminate]. destruct (mapM f l) as [r'|e] eqn:M; cbn [bind] in H; [|discriminate]. assert (r = y :: r') as -> by congruence.
    destruct (IH r' eq_refl) as [L N]. split; [cbn [List.length]; lia|]. intros [|j] z Ez; cbn [nth_error] in *; [assert (z = x) as -> by congruence; exists y; split; [exact E|reflexivity]|apply N, Ez].
Qed.
Lemma mapM_pointwise {B C} (f : B -> result C) l r : List.length r = List.length l -> (forall j x, nth_error l j = Some x -> exists y, f x = Ok y /\ nth_error r j = Some y) -> mapM f l = Ok r.
Proof.
  revert r. induction l as [|x l IH]; intros [|y r] L H; try discriminate; [reflexivity|]. cbn [mapM]. destruct (H 0 x eq_refl) as (y' & -> & E). cbn [nth_error] in E. assert (y' = y) as -> by congruence. cbn [bind].
  rewrite (IH r); [reflexivity|cbn in L; lia|]. intros j z Ez. apply (H (S j) z Ez).
Qed.
Lemma permuted_label k d d' s a a' d1 : permuted d d' -> pick ind a = Ok a' -> export_label F file fluxref fluxdata dtcor other k d (s, a) = Ok d1 ->
  exists d1', export_label F file fluxref fluxdata dtcor other k d' (s, a') = Ok d1' /\ permuted d1 d1'.
Proof.
  intros R H E. unfold export_label in *. cbn [fst snd] in *. destruct (mapM _ (combine (seq 0 (List.length a)) a)) as [l|e] eqn:M; cbn [bind] in E; [|discriminate].
  assert (d1 = assign data_eqb (k, s) l d) as -> by congruence. destruct (mapM_nth _ _ _ M) as [L N]. rewrite combine_length, seq_length, Nat.min_id in L.
  destruct (pick_nth ind a a' H) as [La Na]. destruct (pick_ok ind l) as [l' Pl].
  { intros i Hi. rewrite L. apply In_nth_error in Hi. destruct Hi as [j Hj]. apply (Na j i Hj). }
  destruct (pick_nth ind l l' Pl) as [Ll Nl].
  assert (mapM (fun p => value_at F file fluxref fluxdata dtcor other d' (fst p) (snd p)) (combine (seq 0 (List.length a')) a') = Ok l') as ->.
  { apply mapM_pointwise; [rewrite combine_length, seq_length, Nat.min_id; lia|]. intros j x Ex. rewrite nth_combine_seq in Ex. destruct (nth_error a' j) as [b|] eqn:Eb; [|discriminate]. cbn [option_map Nat.add] in Ex. assert (x = (j, b)) as -> by (inversion Ex; reflexivity). cbn [fst snd].
    destruct (nth_error ind j) as [i|] eqn:Ei; [|apply nth_error_None in Ei; assert (j < List.length a') by (apply nth_error_Some; congruence); lia].
    destruct (Na j i Ei) as [Ea _]. rewrite Eb in Ea. destruct (N i (i, b)) as (y & Ey & Ly); [rewrite nth_combine_seq, <- Ea; reflexivity|]. cbn [fst snd] in Ey.
    exists y. split; [rewrite (permuted_value d d' j i b R Ei); exact Ey|]. rewrite (proj1 (Nl j i Ei)). exact Ly. }
  cbn [bind]. eexists. split; [reflexivity|]. apply permuted_assign; assumption.
Qed.
Lemma permuted_labels k l : forall d d' l' d1, permuted d d' -> mapM (fun ka => let! a := pick ind (snd ka) in Ok (fst ka, a)) l = Ok l' -> export_labels F file fluxref fluxdata dtcor other k d l = Ok d1 ->
  exists d1', export_labels F file fluxref fluxdata dtcor other k d' l' = Ok d1' /\ permuted d1 d1'.
Proof.
  induction l as [|[s a] l IH]; intros d d' l' d1 R H E; cbn [mapM export_labels fst snd] in *.
  - assert (l' = []) as -> by congruence. assert (d1 = d) as -> by congruence. exists d'. split; [reflexivity|exact R].
  - destruct (pick ind a) as [a'|e] eqn:P; cbn [bind] in H; [|discriminate]. destruct (mapM _ l) as [r|e] eqn:M; cbn [bind] in H; [|discriminate]. assert (l' = (s, a') :: r) as -> by congruence.
    destruct (export_label F file fluxref fluxdata dtcor other k d (s, a)) as [d2|e] eqn:E2; cbn [bind] in E; [|discriminate]. destruct (permuted_label k d d' s a a' d2 R P E2) as (d2' & E2' & R2).
    cbn [export_labels]. rewrite E2'. cbn [bind]. apply (IH d2 d2' r d1 R2 eq_refl E).
Qed.
Lemma permuted_export s : forall d d' s' d1, permuted d d' -> mapM (sort_group ind) s = Ok s' -> export F file fluxref fluxdata dtcor other d s = Ok d1 ->
  exists d1', export F file fluxref fluxdata dtcor other d' s' = Ok d1' /\ permuted d1 d1'.
Proof.
  induction s as [|[k l] s IH]; intros d d' s' d1 R H E; cbn [mapM export fst snd] in *.
  - assert (s' = []) as -> by congruence. assert (d1 = d) as -> by congruence. exists d'. split; [reflexivity|exact R].
  - destruct (sort_group ind (k, l)) as [g|e] eqn:G; cbn [bind] in H; [|discriminate]. destruct (mapM (sort_group ind) s) as [r|e] eqn:M; cbn [bind] in H; [|discriminate]. assert (s' = g :: r) as -> by congruence.
    unfold sort_group in G. cbn [fst snd] in G. destruct (mapM (fun ka => let! a := pick ind (snd ka) in Ok (fst ka, a)) l) as [l'|e] eqn:P; cbn [bind] in G; [|discriminate]. assert (g = (k, l')) as -> by congruence.
    destruct (export_labels F file fluxref fluxdata dtcor other k d l) as [d2|e] eqn:E2; cbn [bind] in E; [|discriminate]. destruct (permuted_labels k l d d' l' d2 R P E2) as (d2' & E2' & R2).
    cbn [export fst snd]. rewrite E2'. cbn [bind]. apply (IH d2 d2' r d1 R2 eq_refl E).
Qed.
End Export.
Lemma sort_stacks_ok {A} values (s : stacks A) : Forall (fun g => Forall (fun ka => List.length (snd ka) = List.length values) (snd g)) s ->
  exists v s', sort_stacks values s = Ok (v, s') /\ Permutation v values /\ StronglySorted (fun a b => (a <= b)%Qc) v /\ mapM (sort_group (order values)) s = Ok s' /\ pick (order values) values = Ok v.
Proof.
  intro H. destruct (order_sorted values) as (v & Ev & Pv & Sv). unfold sort_stacks. rewrite Ev. cbn [bind].
  assert (exists s', mapM (sort_group (order values)) s = Ok s') as [s' Es].
  { induction H as [|[k l] s Hl H [r IH]]; [eexists; reflexivity|]. cbn [mapM]. rewrite IH. cbn [snd] in Hl.
    assert (exists l', mapM (fun ka : string * list (arg A) => let! a := pick (order values) (snd ka) in Ok (fst ka, a)) l = Ok l') as [l' El].
    { clear -Hl. induction Hl as [|[n a] l Ha Hl [l' IH]]; [eexists; reflexivity|]. cbn [mapM fst snd] in *. destruct (pick_ok (order values) a) as [a' ->]; [intros i Hi; rewrite Ha; apply order_lt, Hi|]. cbn [bind]. rewrite IH. eexists. reflexivity. }
    unfold sort_group at 1. cbn [fst snd]. rewrite El. cbn [bind]. eexists. reflexivity. }
  rewrite Es. cbn [bind]. exists v, s'. split; [reflexivity|]. split; [exact Pv|]. split; [exact Sv|]. split; [reflexivity|reflexivity].
Qed.
Lemma sorted_export {F} file fluxref fluxdata dtcor other values (s : stacks (source F)) d : Forall (fun g => Forall (fun ka => List.length (snd ka) = List.length values) (snd g)) s ->
  export F file fluxref fluxdata dtcor other [] s = Ok d ->
  exists v s' d' ind, sort_stacks values s = Ok (v, s') /\ export F file fluxref fluxdata dtcor other [] s' = Ok d' /\
    Permutation ind (seq 0 (List.length values)) /\ StronglySorted (fun a b => (a <= b)%Qc) v /\
    (forall j i, nth_error ind j = Some i -> nth_error v j = nth_error values i) /\
    Forall2 (fun e e' => fst e' = fst e /\ List.length (snd e') = List.length values /\ forall j i, nth_error ind j = Some i -> nth_error (snd e') j = nth_error (snd e) i) d d'.
Proof.
  intros H E. destruct (sort_stacks_ok values s H) as (v & s' & Es & _ & Sv & Em & Ev). destruct (permuted_export file fluxref fluxdata dtcor other (order values) s [] [] s' d (Forall2_nil _) Em E) as (d' & E' & R).
  exists v, s', d', (order values). split; [exact Es|]. split; [exact E'|]. split; [apply order_perm|]. split; [exact Sv|]. split; [intros j i Hj; apply (pick_nth _ _ _ Ev), Hj|].
  assert (List.length (order values) = List.length values) as LO by (rewrite (Permutation_length (order_perm values)); apply seq_length).
  clear -R LO. induction R as [|e e' d d' [H1 H2] R IH]; constructor; [|exact IH]. split; [exact H1|]. destruct (pick_nth _ _ _ H2) as [L N]. split; [rewrite L; exact LO|]. intros j i Hj. apply (N j i Hj).
Qed.
(* ---- the function of a result ---- *)
Lemma prefix_split p s : String.prefix p s = true <-> exists b, s = (p ++ b)%string.
Proof.
  revert s. induction p as [|c p IH]; intro s; cbn [String.prefix].
  - split; [intros _; exists s; reflexivity|intros _; destruct s; reflexivity].
  - destruct s as [|d s]; [split; [discriminate|intros [b E]; discriminate]|]. change (String.prefix (String c p) (String d s)) with (match Ascii.ascii_dec c d with left _ => String.prefix p s | right _ => false end). destruct (Ascii.ascii_dec c d) as [-> |N].
    + rewrite IH. split; intros [b E]; exists b; [rewrite E; reflexivity|cbn in E; inversion E; reflexivity].
    + split; [discriminate|]. intros [b E]. cbn in E. inversion E. congruence.
Qed.
Lemma contains_split p s : contains p s = true <-> exists a b, s = (a ++ p ++ b)%string.
Proof.
  induction s as [|c s IH]; cbn [contains]; destruct (String.prefix p _) eqn:P.
  - apply prefix_split in P. destruct P as [b E]. split; [intros _; exists ""%string, b; exact E|reflexivity].
  - split; [discriminate|]. intros (a & b & E). destruct a; [|discriminate]. cbn in E. assert (String.prefix p "" = true) by (apply prefix_split; exists b; exact E). congruence.
  - apply prefix_split in P. destruct P as [b E]. split; [intros _; exists ""%string, b; exact E|reflexivity].
  - rewrite IH. split; [intros (a & b & ->); exists (String c a), b; reflexivity|]. intros (a & b & E). destruct a as [|d a].
    + cbn in E. assert (String.prefix p (String c s) = true) by (apply prefix_split; exists b; exact E). congruence.
    + cbn in E. exists a, b. inversion E. reflexivity.
Qed.
Lemma func_spec counters k :
  (In k counters -> func_of counters k = Fsum) /\
  (~ In k counters -> (exists b, k = ("w" ++ b)%string) -> func_of counters k = Fnanmean) /\
  (~ In k counters -> ~ (exists b, k = ("w" ++ b)%string) -> (exists a b, k = (a ++ "chisq" ++ b)%string) -> func_of counters k = Fnanmax) /\
  (~ (exists b, k = ("w" ++ b)%string) -> ~ (exists a b, k = (a ++ "chisq" ++ b)%string) -> func_of counters k = Fsum).
Proof.
  pose proof (existsb_In k counters) as I. pose proof (prefix_split "w" k) as P. pose proof (contains_split "chisq" k) as C. unfold func_of.
  destruct (existsb (String.eqb k) counters), (String.prefix "w" k), (contains "chisq" k); repeat split; intros; try reflexivity; exfalso; intuition congruence.
Qed.
Lemma corrected_sum {A} leaf fluxref flux dtcor other counters n dt (s : stacks A) l D k i r w c qs : dict s -> one_level l -> complete n s l -> In D (map snd l) ->
  (forall k1, In k1 (map fst l) -> isdetector k1 = true) -> ~ In k counters -> ~ (exists b, k = ("w" ++ b)%string) -> ~ (exists a b, k = (a ++ "chisq" ++ b)%string) -> view s D k = None -> i < n ->
  fluxref i = Ok (Fin r) -> flux i = Ok (Fin w) -> r <> 0%Qc -> w <> 0%Qc -> members s l D k i <> [] ->
  Forall2 (fun e q => eval A leaf fluxref flux dtcor other (snd e) = Ok (Fin q) /\ dtcor i (number (fst e)) = Fin (c (fst e))) (members s l D k i) qs ->
  exists s' a x, postcorrect counters n true dt l s = Ok s' /\ (forall k1, In k1 (map fst l) -> lookup key_eqb k1 s' = None) /\ view s' D k = Some a /\ nth_error a i = Some x /\
    eval A leaf fluxref flux dtcor other x =
      Ok (Fin (fold_right Qcplus 0%Qc (map (fun eq => snd eq * (r / w) * (if dt && negb (issum (fst (fst eq))) then c (fst (fst eq)) else 1))%Qc (combine (members s l D k i) qs)))).
Proof.
  intros Ds OL Cp HD Hdet Hk Hw Hc Hv Hi Er Ew Nr Nw NE F2.
  destruct (postcorrect_value leaf fluxref flux dtcor other counters n true dt s l D k i Ds OL Cp HD Hdet Hk Hv Hi) as (s' & E & R & V).
  destruct (view s' D k) as [a|] eqn:Ev; [|contradiction]. destruct V as (x & Ex & Vx). exists s', a, x. split; [exact E|]. split; [exact R|]. split; [exact Ev|]. split; [exact Ex|].
  rewrite Vx. rewrite (proj2 (proj2 (proj2 (func_spec counters k))) Hw Hc). apply sum_of_members; assumption.
Qed.
(* ---- sums of detectors that are given by name ---- *)
Lemma dec_aux_nonempty f n acc : acc <> [] -> Text.dec_aux f n acc <> [].
Proof. revert n acc. induction f as [|f IH]; intros n acc H; cbn [Text.dec_aux]; [exact H|]. destruct (n / 10 =? 0)%Z; [discriminate|]. apply IH. discriminate. Qed.
Lemma dec_nonempty n : Text.dec n <> [].
Proof. unfold Text.dec. cbn [Text.dec_aux]. destruct (n / 10 =? 0)%Z; [discriminate|]. apply dec_aux_nonempty. discriminate. Qed.
Lemma aslist_sum n : 1 < List.length (aslist (IDet (DSum n))).
Proof.
  cbn [aslist List.length]. rewrite map_length. unfold Text.str_int. destruct (n <? 0)%Z; [cbn [List.length]; lia|]. pose proof (dec_nonempty n). destruct (Text.dec n); [contradiction|cbn [List.length]; lia].
Qed.
Lemma mapM_group_err l : (exists ks, mapM group_of l = Ok ks) \/ mapM group_of l = Err ValueError.
Proof. induction l as [|d l IH]; [left; eexists; reflexivity|]. cbn [mapM]. destruct d; cbn [group_of bind]; [| |right; reflexivity]; destruct IH as [[ks ->]| ->]; cbn [bind]; [left; eexists; reflexivity|right; reflexivity|left; eexists; reflexivity|right; reflexivity]. Qed.
Lemma mapM_group_bad l : In DBad l -> mapM group_of l = Err ValueError.
Proof.
  induction l as [|d l IH]; intro H; [destruct H|]. cbn [mapM]. destruct H as [-> |H]; [reflexivity|]. rewrite (IH H). destruct d; reflexivity.
Qed.
Lemma to_groups_bad g s : (exists k l, In (k, l) g /\ In DBad l) -> to_groups g s = Err ValueError.
Proof.
  revert s. induction g as [|[k l] g IH]; intros s (k0 & l0 & H & B); [destruct H|]. cbn [to_groups]. destruct (mapM_group_err l) as [[ks E]|E]; rewrite E; cbn [bind]; [|reflexivity].
  apply IH. destruct H as [H|H]; [|exists k0, l0; split; assumption]. assert (l0 = l) as -> by congruence. rewrite (mapM_group_bad l B) in E. discriminate.
Qed.
Lemma text_characters include present add before n : In (IDet (DSum n)) include -> 2 <= List.length include -> prepare include present add before = Err ValueError.
Proof.
  intros H L. unfold prepare. assert (existsb (fun i => 1 <? List.length (aslist i)) include = true) as -> by (apply existsb_exists; eexists; split; [exact H|apply Nat.ltb_lt, aslist_sum]).
  cbn [bind]. assert (List.length (enumerated include) = List.length include) as LE by (unfold enumerated; rewrite map_length, combine_length, seq_length; lia). rewrite LE.
  assert (1 <? List.length include = true) as -> by (apply Nat.ltb_lt; lia). rewrite orb_true_r. cbn [andb orb].
  assert (to_groups (enumerated include) [] = Err ValueError) as ->.
  { apply to_groups_bad. apply In_nth_error in H. destruct H as [j H]. exists (Sums (Z.of_nat (1 + j))), (aslist (IDet (DSum n))). split; [|left; reflexivity].
    unfold enumerated. apply (nth_error_In _ j). rewrite nth_error_map, nth_combine_seq, H. reflexivity. }
  cbn [bind]. destruct before; [reflexivity|]. destruct (mapM_group_err (match flat include with [] => present | l => filter (fun d => existsb (det_eqb d) present) l end)) as [[ks E]|E]; rewrite E; reflexivity.
Qed.
Definition demo_stacks : stacks num := [(Counters, [("I0"%string, [Leaf (Fin 1)])]); (Det 0, [("Fe"%string, [Leaf (Fin 1)])]); (Det 1, [("Fe"%string, [Leaf (Fin 1)])])].
Definition demo_sources : stacks (source num) := [(Counters, [("I0"%string, [Leaf (File (Fin 1)); Leaf (File (Fin 0))])]); (Det 0, [("Fe"%string, [Slice Fsum [Leaf (Data Counters "I0"%string); Leaf (File (Fin 1))]; Leaf (File PInf)])])].
