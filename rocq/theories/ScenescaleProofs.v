From Verif Require Import BaseProofs ScenescaleModel ScenescaleSpec.
From Coq Require Import Lia.
Local Open Scope list_scope.
Local Open Scope nat_scope.

(* channels *)
Lemma nchannels_cases n : (n = 1 /\ nchannels n = 1) \/ (n <> 1 /\ nchannels n = 3).
Proof.
  unfold nchannels. destruct (Nat.min n 3 =? 1) eqn:E; [left|right].
  - apply Nat.eqb_eq in E. split; [lia|reflexivity].
  - apply Nat.eqb_neq in E. split; [lia|reflexivity].
Qed.
Theorem channels_shape depth s s' l : channels depth s = (s', Ok l) -> List.length l = 1 \/ List.length l = 3.
Proof.
  destruct s as [|i|m|m]; cbn [channels].
  - destruct (nchannels_cases depth) as [[H ->]|[H ->]].
    + subst depth. cbn. intros G. injection G as _ <-. auto.
    + destruct (depth <? 3) eqn:E; [discriminate|]. apply Nat.ltb_ge in E. intros G. replace (Nat.min depth 3) with 3 in G by lia. injection G as _ <-. auto.
  - intros G. injection G as _ <-. auto.
  - destruct (nchannels_cases (List.length m)) as [[H ->]|[H ->]].
    + rewrite H. cbn. intros G. injection G as _ <-. left. destruct m as [|a [|b m]]; try discriminate. reflexivity.
    + destruct (List.length m <? 3) eqn:E; intros G; match type of G with (_, Ok ?x) = _ => assert (l = x) as -> by congruence end; right.
      * apply Nat.ltb_lt in E. rewrite app_length, repeat_length. lia.
      * apply Nat.ltb_ge in E. rewrite firstn_length. lia.
  - destruct (nchannels_cases (List.length m)) as [[H ->]|[H ->]].
    + rewrite H. cbn. intros G. injection G as _ <-. left. destruct m as [|a [|b m]]; try discriminate. reflexivity.
    + destruct (List.length m <? 3) eqn:E; [discriminate|]. intros G; match type of G with (_, Ok ?x) = _ => assert (l = x) as -> by congruence end; right. apply Nat.ltb_ge in E. rewrite firstn_length. lia.
Qed.
Lemma nth_firstn_lt {A} (d : A) n : forall l j, j < n -> nth j (firstn n l) d = nth j l d.
Proof. induction n as [|n IH]; intros l j H; [lia|]. destruct l as [|a l]; [reflexivity|]. destruct j as [|j]; [reflexivity|]. cbn. apply IH. lia. Qed.
Lemma nth_pad {A} (d : A) n l j : nth j (l ++ repeat d n) d = nth j l d.
Proof.
  destruct (Nat.lt_ge_cases j (List.length l)) as [H|H]; [now apply app_nth1|]. rewrite app_nth2 by exact H. rewrite (nth_overflow l) by exact H. apply nth_repeat.
Qed.
Theorem channels_list depth l s' r j : channels depth (ChList l) = (s', Ok r) -> j < 3 -> nth j r None = nth j l None.
Proof.
  cbn [channels]. destruct (nchannels_cases (List.length l)) as [[H ->]|[H ->]]; intros G J.
  - rewrite H in G. cbn in G. injection G as _ <-. destruct l as [|a [|b l]]; try discriminate. reflexivity.
  - destruct (List.length l <? 3); match type of G with (_, Ok ?x) = _ => assert (r = x) as -> by congruence end; [apply nth_pad|now apply nth_firstn_lt].
Qed.
Theorem channels_list_total depth l : exists s' r, channels depth (ChList l) = (s', Ok r).
Proof. cbn [channels]. destruct (List.length l <? nchannels (List.length l)); eauto. Qed.
Theorem channels_default depth : channels depth ChDefault = (ChDefault,
  if depth =? 1 then Ok [Some 0%Z] else if depth <? 3 then Err AttributeError else Ok [Some 0%Z; Some 1%Z; Some 2%Z]).
Proof.
  cbn [channels]. destruct (nchannels_cases depth) as [[-> ->]|[H ->]]; [reflexivity|].
  destruct (depth =? 1) eqn:E; [apply Nat.eqb_eq in E; contradiction|]. destruct (depth <? 3) eqn:F; [reflexivity|]. apply Nat.ltb_ge in F.
  replace (Nat.min depth 3) with 3 by lia. reflexivity.
Qed.
Theorem channels_grow depth l : List.length l = 0 \/ List.length l = 2 ->
  exists r, channels depth (ChList l) = (ChList r, Ok r) /\ r <> l /\ channels depth (ChList r) = (ChList r, Ok r) /\ channels depth (ChTuple l) = (ChTuple l, Err AttributeError).
Proof.
  intros [H|H]; destruct l as [|a [|b [|c l]]]; try discriminate; cbn; eexists; repeat split; discriminate.
Qed.
Theorem channels_tuple depth l : List.length l <> 0 -> List.length l <> 2 -> snd (channels depth (ChTuple l)) = snd (channels depth (ChList l)).
Proof.
  intros H0 H2. cbn [channels]. destruct (nchannels_cases (List.length l)) as [[H ->]|[H ->]]; [rewrite H; reflexivity|].
  destruct (List.length l <? 3) eqn:E; [apply Nat.ltb_lt in E; lia|reflexivity].
Qed.
(* data of the channels *)
Lemma get_data_err p i e : get_data p i = Err e -> e = IndexError.
Proof.
  destruct p as [v|l]; cbn.
  - destruct (i =? 0)%Z; congruence.
  - unfold py_get. destruct (py_pos (List.length l) i); [|congruence]. destruct (nth_error l n); congruence.
Qed.
Theorem data_ok p cs d : data p cs = Ok d -> List.length d = List.length cs /\
  forall j, (nth_error cs j = Some None -> nth_error d j = Some 0%Qc) /\ (forall i, nth_error cs j = Some (Some i) -> exists v, get_data p i = Ok v /\ nth_error d j = Some v).
Proof.
  unfold data. revert d. induction cs as [|c cs IH]; intros d; cbn [mapM].
  - intros H. assert (d = []) as -> by congruence. split; [reflexivity|]. intros [|j]; split; [discriminate| |discriminate|]; intros i H0; discriminate H0.
  - destruct (match c with None => Ok 0%Qc | Some i => get_data p i end) as [x|e] eqn:C; cbn [bind]; [|discriminate].
    destruct (mapM _ cs) as [ds|e] eqn:M in |- *; cbn [bind]; [|discriminate]. intros H. assert (d = x :: ds) as -> by congruence. destruct (IH ds M) as [L G]. split; [cbn; now rewrite L|].
    intros [|j]; [|apply G]. cbn. split.
    + intros E. assert (c = None) as -> by congruence. congruence.
    + intros i E. assert (c = Some i) as -> by congruence. eauto.
Qed.
Theorem data_err p cs : (exists i, In (Some i) cs /\ get_data p i = Err IndexError) <-> data p cs = Err IndexError.
Proof.
  unfold data. induction cs as [|c cs IH]; cbn [mapM].
  - split; [intros (i & [] & _)|discriminate].
  - destruct (match c with None => Ok 0%Qc | Some i => get_data p i end) as [x|e] eqn:C; cbn [bind].
    + destruct (mapM _ cs) as [ds|e] eqn:M in IH |- *; cbn [bind].
      * split; [|discriminate]. intros (i & [-> | I] & E); [congruence|]. assert (@Ok (list Qc) ds = Err IndexError) by (apply IH; eauto). discriminate.
      * split.
        -- intros (i & [-> | I] & E); [congruence|]. assert (Err e = @Err (list Qc) IndexError) by (apply IH; eauto). congruence.
        -- intros E. assert (e = IndexError) as -> by congruence. destruct (proj2 IH eq_refl) as (i & I & F). exists i. split; [now right|exact F].
    + destruct c as [i|]; [|discriminate]. pose proof (get_data_err _ _ _ C) as ->. split; [reflexivity|]. intros _. exists i. split; [now left|exact C].
Qed.
Theorem data_plain v i : get_data (Px2 v) i = if (i =? 0)%Z then Ok v else Err IndexError.
Proof. reflexivity. Qed.
Theorem label_none {A} (empty : A) labels i : label empty labels (Some i) = Some empty <-> ((exists e, py_get labels i = Err e) \/ py_get labels i = Ok empty).
Proof.
  cbn. destruct (py_get labels i) as [x|e].
  - split; [intros H; right; congruence|]. intros [[e H]|H]; congruence.
  - split; [eauto|reflexivity].
Qed.

(* nanmin and nanmax *)
Section column.
Variable f : Qc -> Qc -> Qc.
Variable le : Qc -> Qc -> Prop.
Hypothesis pick : forall x y, f x y = x \/ f x y = y.
Hypothesis left : forall x y, le (f x y) x.
Hypothesis right : forall x y, le (f x y) y.
Hypothesis refl : forall x, le x x.
Hypothesis trans : forall x y z, le x y -> le y z -> le x z.
Lemma column_spec rows c : forall acc, let r := fold_left (fun acc r => nan_best f acc (nth c r None)) rows acc in
  (r = None -> acc = None /\ forall row, In row rows -> nth c row None = None) /\
  (forall a, r = Some a -> (acc = Some a \/ exists row, In row rows /\ nth c row None = Some a) /\
     (forall b, acc = Some b -> le a b) /\ forall row b, In row rows -> nth c row None = Some b -> le a b).
Proof.
  induction rows as [|row rows IH]; intros acc; cbn [fold_left].
  - cbv zeta. split; [intros ->; split; [reflexivity|easy]|]. intros a ->. split; [auto|]. split; [|easy]. intros b E. assert (b = a) as -> by congruence. apply refl.
  - specialize (IH (nan_best f acc (nth c row None))). cbv zeta in *. destruct IH as [I1 I2]. split.
    + intros H. destruct (I1 H) as [A B]. destruct acc as [x|]; cbn in A; [destruct (nth c row None); discriminate|]. split; [reflexivity|]. intros r [<- | R]; auto.
    + intros a H. destruct (I2 a H) as (A & B & C). split; [|split].
      * destruct A as [A|(r & R & E)]; [|right; exists r; split; [now right|exact E]].
        destruct acc as [x|], (nth c row None) as [y|] eqn:N; cbn in A; try discriminate.
        -- destruct (pick x y) as [P|P]; rewrite P in A; [left; exact A|right; exists row; split; [now left|congruence]].
        -- auto.
        -- right. exists row. split; [now left|congruence].
      * intros b ->. destruct (nth c row None) as [y|]; cbn in B; [|now apply B]. eapply trans; [apply B; reflexivity|apply left].
      * intros r b [<- | R] E; [|now apply (C r)]. rewrite E in B. destruct acc as [x|]; cbn in B; [|now apply B]. eapply trans; [apply B; reflexivity|apply right].
Qed.
End column.
Lemma nth_error_nth {A} (l : list (option A)) c x : nth c l None = Some x <-> nth_error l c = Some (Some x).
Proof.
  revert c. induction l as [|a l IH]; intros [|c]; cbn; try (split; discriminate).
  - split; congruence.
  - apply IH.
Qed.
Lemma reshape_nth n (v : list (option Qc)) c x : nth c (v ++ repeat None (n - List.length v)) None = Some x <-> nth_error v c = Some (Some x).
Proof. rewrite nth_pad. apply nth_error_nth. Qed.
Lemma nth_error_map_seq {A} (g : nat -> A) n c : nth_error (map g (seq 0 n)) c = if c <? n then Some (g c) else None.
Proof.
  destruct (c <? n) eqn:E.
  - apply Nat.ltb_lt in E. rewrite nth_error_map. rewrite (nth_error_nth' _ 0) by (rewrite seq_length; lia). rewrite seq_nth by lia. reflexivity.
  - apply Nat.ltb_ge in E. apply nth_error_None. rewrite map_length, seq_length. lia.
Qed.
Lemma list_max_in l x : In x l -> x <= list_max l.
Proof. intros H. pose proof (proj1 (list_max_le l (list_max l)) (Nat.le_refl _)) as F. rewrite Forall_forall in F. auto. Qed.

Section minmax.
Variable f : Qc -> Qc -> Qc.
Variable le : Qc -> Qc -> Prop.
Hypothesis pick : forall x y, f x y = x \/ f x y = y.
Hypothesis left : forall x y, le (f x y) x.
Hypothesis right : forall x y, le (f x y) y.
Hypothesis refl : forall x, le x x.
Hypothesis trans : forall x y z, le x y -> le y z -> le x z.
Lemma columns_spec {T} (g : T -> list (option Qc)) (its : list T) n c : (forall it, In it its -> List.length (g it) <= n) ->
  let lo := map (nan_column f (map (fun it => g it ++ repeat None (n - List.length (g it))) its)) (seq 0 n) in
  (nth_error lo c = Some None -> forall it x, In it its -> nth_error (g it) c <> Some (Some x)) /\
  (forall a, nth_error lo c = Some (Some a) -> (exists it, In it its /\ nth_error (g it) c = Some (Some a)) /\ forall it b, In it its -> nth_error (g it) c = Some (Some b) -> le a b) /\
  (forall it x, In it its -> nth_error (g it) c = Some x -> exists r, nth_error lo c = Some r).
Proof.
  intros L. cbv zeta. rewrite nth_error_map_seq. set (rows := map _ its).
  pose proof (column_spec f le pick left right refl trans rows c None) as H. cbv zeta in H. fold (nan_column f rows c) in H. destruct H as [H1 H2]. split; [|split].
  - destruct (c <? n); [|discriminate]. intros E it x I G. assert (nan_column f rows c = None) as N by congruence. destruct (H1 N) as [_ B].
    assert (nth c (g it ++ repeat None (n - List.length (g it))) None = None) as Z by (apply B; apply in_map_iff; eauto). apply (reshape_nth n) in G. congruence.
  - destruct (c <? n); [|discriminate]. intros a E. assert (nan_column f rows c = Some a) as N by congruence. destruct (H2 a N) as (A & _ & C). split.
    + destruct A as [A|(row & R & G)]; [discriminate|]. apply in_map_iff in R as (it & <- & I). exists it. split; [exact I|]. now apply (reshape_nth n).
    + intros it b I G. apply (C (g it ++ repeat None (n - List.length (g it)))); [apply in_map_iff; eauto|now apply reshape_nth].
  - intros it x I G. destruct (c <? n) eqn:E; [eauto|]. apply Nat.ltb_ge in E. assert (c < List.length (g it)) by (apply nth_error_Some; congruence). specialize (L it I). lia.
Qed.
End minmax.
Lemma min_pick x y : Qc_min x y = x \/ Qc_min x y = y.
Proof. unfold Qc_min. destruct (Qc_leb x y); auto. Qed.
Lemma max_pick x y : Qc_max x y = x \/ Qc_max x y = y.
Proof. unfold Qc_max. destruct (Qc_leb x y); auto. Qed.
Lemma min_left x y : (Qc_min x y <= x)%Qc.
Proof. unfold Qc_min. destruct (Qc_leb x y) eqn:E; [apply Qcle_refl|apply Qc_leb_gt in E; now apply Qclt_le_weak]. Qed.
Lemma min_right x y : (Qc_min x y <= y)%Qc.
Proof. unfold Qc_min. destruct (Qc_leb x y) eqn:E; [now apply Qc_leb_le|apply Qcle_refl]. Qed.
Lemma max_left x y : (x <= Qc_max x y)%Qc.
Proof. unfold Qc_max. destruct (Qc_leb x y) eqn:E; [now apply Qc_leb_le|apply Qcle_refl]. Qed.
Lemma max_right x y : (y <= Qc_max x y)%Qc.
Proof. unfold Qc_max. destruct (Qc_leb x y) eqn:E; [apply Qcle_refl|apply Qc_leb_gt in E; now apply Qclt_le_weak]. Qed.
Theorem vminmax_none its : vminmax its = None <-> its = [].
Proof. destruct its; cbn; split; congruence. Qed.
Lemma vminmax_bound its it (g : list (option Qc) * list (option Qc) -> list (option Qc)) : (forall it, In it its -> List.length (g it) = List.length (fst it)) -> In it its ->
  List.length (g it) <= list_max (map (fun it => List.length (fst it)) its).
Proof. intros W I. rewrite (W it I). apply list_max_in, in_map_iff. eauto. Qed.
Theorem vmin_spec its lo hi c : vminmax its = Some (lo, hi) ->
  (nth_error lo c = Some None -> forall it x, In it its -> nth_error (fst it) c <> Some (Some x)) /\
  (forall a, nth_error lo c = Some (Some a) -> (exists it, In it its /\ nth_error (fst it) c = Some (Some a)) /\ forall it b, In it its -> nth_error (fst it) c = Some (Some b) -> (a <= b)%Qc) /\
  (forall it x, In it its -> nth_error (fst it) c = Some x -> exists r, nth_error lo c = Some r).
Proof.
  intros H. destruct its as [|i0 its0] eqn:E; [discriminate|]. rewrite <- E in *. assert (vminmax its = Some (lo, hi)) as H' by (rewrite E in *; exact H).
  clear H. rewrite E in H'. unfold vminmax in H'. rewrite <- E in H'. clear E.
  assert (lo = map (nan_column Qc_min (map (fun it => fst it ++ repeat None (list_max (map (fun it => List.length (fst it)) its) - List.length (fst it))) its)) (seq 0 (list_max (map (fun it => List.length (fst it)) its)))) as -> by (cbv zeta in H'; congruence).
  apply (columns_spec Qc_min Qcle min_pick min_left min_right Qcle_refl Qcle_trans (fun it => fst it)). intros it I. now apply (vminmax_bound its it fst).
Qed.
Theorem vmax_spec its lo hi c : vminmax its = Some (lo, hi) -> (forall it, In it its -> List.length (snd it) = List.length (fst it)) ->
  (nth_error hi c = Some None -> forall it x, In it its -> nth_error (snd it) c <> Some (Some x)) /\
  (forall a, nth_error hi c = Some (Some a) -> (exists it, In it its /\ nth_error (snd it) c = Some (Some a)) /\ forall it b, In it its -> nth_error (snd it) c = Some (Some b) -> (b <= a)%Qc) /\
  (forall it x, In it its -> nth_error (snd it) c = Some x -> exists r, nth_error hi c = Some r).
Proof.
  intros H W. destruct its as [|i0 its0] eqn:E; [discriminate|]. rewrite <- E in *. assert (vminmax its = Some (lo, hi)) as H' by (rewrite E in *; exact H).
  clear H. rewrite E in H'. unfold vminmax in H'. rewrite <- E in H'. clear E.
  assert (hi = map (nan_column Qc_max (map (fun it => snd it ++ repeat None (list_max (map (fun it => List.length (fst it)) its) - List.length (snd it))) its)) (seq 0 (list_max (map (fun it => List.length (fst it)) its)))) as -> by (cbv zeta in H'; congruence).
  apply (columns_spec Qc_max (fun a b => (b <= a)%Qc) max_pick max_left max_right Qcle_refl (fun x y z A B => Qcle_trans _ _ _ B A) (fun it => snd it)). intros it I. now apply (vminmax_bound its it snd).
Qed.

(* windows *)
Lemma nth_error_map2 {A B C} (g : A -> B -> C) : forall l m c, nth_error (map2 g l m) c = match nth_error l c, nth_error m c with Some a, Some b => Some (g a b) | _, _ => None end.
Proof.
  induction l as [|a l IH]; intros m c; [destruct c; reflexivity|]. destruct m as [|b m]; [destruct c; cbn; [reflexivity|now destruct (nth_error l c)]|]. destruct c; [reflexivity|]. cbn. apply IH.
Qed.
Lemma map2_length {A B C} (g : A -> B -> C) : forall l m, List.length (map2 g l m) = Nat.min (List.length l) (List.length m).
Proof. induction l as [|a l IH]; intros [|b m]; cbn; try reflexivity. now rewrite IH. Qed.
Lemma window_nth v d p c a y q : nth_error v c = Some (Some a) -> nth_error d c = Some (Some y) -> nth_error p c = Some q -> nth_error (window v d p) c = Some (Some (a + y * q)%Qc).
Proof. intros A Y Q. unfold window. now rewrite !nth_error_map2, A, Y, Q. Qed.
Lemma nth_error_of_nth {A} (d : A) l c : c < List.length l -> nth_error l c = Some (nth c l d).
Proof. intros H. now apply nth_error_nth'. Qed.
Lemma parse_nth p n c : c < n -> nth_error (pminmaxparse p n) c = Some (match p with POne q => q | PMany l => nth c l 0%Qc end).
Proof.
  intros H. destruct p as [q|l]; cbn [pminmaxparse].
  - rewrite (nth_error_of_nth q) by now rewrite repeat_length. now rewrite nth_repeat.
  - destruct (List.length l <? n) eqn:E.
    + apply Nat.ltb_lt in E. rewrite (nth_error_of_nth 0%Qc) by (rewrite app_length, repeat_length; lia). now rewrite nth_pad.
    + apply Nat.ltb_ge in E. rewrite (nth_error_of_nth 0%Qc) by (rewrite firstn_length; lia). now rewrite nth_firstn_lt.
Qed.
Theorem self vmin vmax pmin pmax c a b : nth_error vmin c = Some (Some a) -> nth_error vmax c = Some (Some b) ->
  nth_error (fst (selfscale vmin vmax pmin pmax)) c = Some (Some (a + (b - a) * match pmin with POne q => q | PMany l => nth c l 0 end)%Qc) /\
  nth_error (snd (selfscale vmin vmax pmin pmax)) c = Some (Some (a + (b - a) * match pmax with POne q => q | PMany l => nth c l 0 end)%Qc).
Proof.
  intros A B. assert (c < List.length vmin) as L by (apply nth_error_Some; congruence). unfold selfscale. cbn [fst snd].
  assert (nth_error (map2 (nan_op Qcminus) vmax vmin) c = Some (Some (b - a)%Qc)) as D by (now rewrite nth_error_map2, A, B).
  split; (apply window_nth; [exact A|exact D|now apply parse_nth]).
Qed.
Lemma broadcast_nth p n l c : broadcast p n = Ok l -> c < n -> nth_error l c = Some (fraction_of p c).
Proof.
  destruct p as [q|m]; cbn [broadcast fraction_of].
  - intros H L. assert (l = repeat q n) as -> by congruence. rewrite (nth_error_of_nth q) by now rewrite repeat_length. now rewrite nth_repeat.
  - destruct m as [|q [|q' m]].
    + intros H L. destruct (List.length (@nil Qc) =? n) eqn:E; [|discriminate]. apply Nat.eqb_eq in E. cbn in E. lia.
    + intros H L. assert (l = repeat q n) as -> by congruence. rewrite (nth_error_of_nth q) by now rewrite repeat_length. now rewrite nth_repeat.
    + intros H L. destruct (List.length (q :: q' :: m) =? n) eqn:E; [|discriminate]. apply Nat.eqb_eq in E. assert (l = q :: q' :: m) as -> by congruence. apply nth_error_of_nth. now rewrite E.
Qed.
Theorem global_low vmin vmax old rlo lo hi : globalscaling (Some (vmin, vmax)) old (Some rlo) None None None = Ok (lo, hi) ->
  hi = None /\ exists l, lo = Some l /\ forall c a b, nth_error vmin c = Some (Some a) -> nth_error vmax c = Some (Some b) -> nth_error l c = Some (Some (a + (b - a) * fraction_of rlo c)%Qc).
Proof.
  unfold globalscaling. set (d := map2 _ vmax vmin). destruct (broadcast rlo (List.length d)) as [q|e] eqn:Q; cbn [bind]; [|discriminate]. intros H.
  assert (lo = Some (window vmin d q)) as -> by congruence. split; [congruence|]. eexists. split; [reflexivity|]. intros c a b A B.
  assert (nth_error d c = Some (Some (b - a)%Qc)) as D by (unfold d; now rewrite nth_error_map2, A, B).
  apply window_nth; [exact A|exact D|]. apply (broadcast_nth _ _ _ _ Q). apply nth_error_Some. congruence.
Qed.
Theorem global_high vv old rhi alo ahi : globalscaling (Some vv) old None (Some rhi) alo ahi = Err TypeError \/ globalscaling (Some vv) old None (Some rhi) alo ahi = Err ValueError.
Proof.
  destruct vv as [vmin vmax]. unfold globalscaling. cbn [bind]. destruct (broadcast rhi _) as [q|e] eqn:Q; cbn [bind]; [auto|].
  right. f_equal. destruct rhi as [q|[|q [|q' m]]]; cbn [broadcast] in Q; try discriminate; [destruct (List.length (@nil Qc) =? _)|destruct (List.length (q :: q' :: m) =? _)]; congruence.
Qed.
Theorem global_high_number vv old q alo ahi : globalscaling (Some vv) old None (Some (POne q)) alo ahi = Err TypeError.
Proof. destruct vv. reflexivity. Qed.
Theorem global_both vmin vmax old rlo rhi lo hi : globalscaling (Some (vmin, vmax)) old (Some rlo) (Some rhi) None None = Ok (lo, hi) ->
  exists l h, lo = Some l /\ hi = Some h /\ forall c a b, nth_error vmin c = Some (Some a) -> nth_error vmax c = Some (Some b) ->
    nth_error l c = Some (Some (a + (b - a) * fraction_of rlo c)%Qc) /\ nth_error h c = Some (Some (a + (b - a) * (fraction_of rlo c + fraction_of rhi c))%Qc).
Proof.
  unfold globalscaling. set (d := map2 _ vmax vmin). destruct (broadcast rlo (List.length d)) as [q|e] eqn:Q; cbn [bind]; [|discriminate].
  destruct (broadcast rhi (List.length d)) as [q'|e] eqn:Q'; cbn [bind]; [|discriminate]. intros H.
  assert (lo = Some (window vmin d q)) as -> by congruence. assert (hi = Some (window (window vmin d q) d q')) as -> by congruence. do 2 eexists. split; [reflexivity|]. split; [reflexivity|].
  intros c a b A B. assert (nth_error d c = Some (Some (b - a)%Qc)) as D by (unfold d; now rewrite nth_error_map2, A, B).
  assert (c < List.length d) as L by (apply nth_error_Some; congruence).
  assert (nth_error (window vmin d q) c = Some (Some (a + (b - a) * fraction_of rlo c)%Qc)) as W by (apply window_nth; [exact A|exact D|now apply (broadcast_nth _ _ _ _ Q)]).
  split; [exact W|]. rewrite (window_nth _ _ _ _ _ _ _ W D (broadcast_nth _ _ _ _ Q' L)). f_equal. f_equal. ring.
Qed.
Theorem global_both_total vmin vmax old p q : exists lo hi, globalscaling (Some (vmin, vmax)) old (Some (POne p)) (Some (POne q)) None None = Ok (Some lo, Some hi).
Proof. cbn. eauto. Qed.
Theorem global_absolute vv old rlo rhi alo ahi s : alo <> None \/ ahi <> None -> globalscaling vv old rlo rhi alo ahi = Ok s -> s = (alo, ahi).
Proof.
  intros N. unfold globalscaling. match goal with |- context [bind ?r _] => destruct r as [t|e] end; cbn [bind]; [|discriminate].
  destruct alo, ahi; intros H; try congruence. destruct N; congruence.
Qed.
Theorem global_none vv old : globalscaling vv old None None None None = Ok old.
Proof. reflexivity. Qed.
Theorem global_empty old rlo rhi alo ahi : rlo <> None \/ rhi <> None -> globalscaling None old rlo rhi alo ahi = Err TypeError.
Proof. intros N. unfold globalscaling. destruct rlo, rhi; try reflexivity. destruct N; congruence. Qed.
