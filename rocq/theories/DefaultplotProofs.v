From Verif Require Import BaseProofs TextProofs DefaultplotModel DefaultplotSpec PlotProofs.
From Coq Require Import Lia.
Local Open Scope list_scope.
Local Open Scope nat_scope.

Lemma ceqb a b : chars_eqb a b = true <-> a = b.
Proof. apply chars_eqb_spec. Qed.
Lemma default_signal_has d n : (has_signal d n -> snd (default_signal d n) = true /\ x_signal (fst (default_signal d n)) = Some n) /\ (~ has_signal d n -> default_signal d n = (d, false)).
Proof.
  unfold default_signal, has_signal. split.
  - intros H. destruct (x_signal d) as [m|] eqn:X.
    + destruct (chars_eqb n m) eqn:E; [apply ceqb in E; subst; cbn; auto|]. assert (existsb (chars_eqb n) (sigs d ++ auxs d) = true) as ->; [|cbn; auto].
      apply existsb_exists. exists n. split; [|now apply ceqb]. apply in_or_app. right. unfold auxs. destruct H as [H|(l & -> & H)]; [|exact H]. assert (m = n) as -> by congruence. assert (chars_eqb n n = true) by now apply ceqb. congruence.
    + assert (existsb (chars_eqb n) (sigs d ++ auxs d) = true) as ->; [|cbn; auto].
      apply existsb_exists. exists n. split; [|now apply ceqb]. apply in_or_app. right. unfold auxs. destruct H as [H|(l & -> & H)]; [discriminate|exact H].
  - intros H. assert (match x_signal d with Some m => chars_eqb n m | None => false end = false) as ->.
    { destruct (x_signal d) as [m|]; [|reflexivity]. apply Bool.not_true_iff_false. intros E. apply ceqb in E. subst. apply H. now left. }
    assert (existsb (chars_eqb n) (sigs d ++ auxs d) = false) as ->; [|reflexivity]. apply Bool.not_true_iff_false. intros E. apply existsb_exists in E as (m & I & E). apply ceqb in E. subst m. apply H.
    apply in_app_or in I as [I|I]; [left|right]; unfold sigs, auxs in I.
    + destruct (x_signal d); [destruct I as [->|[]]; reflexivity|destruct I].
    + destruct (x_aux d) as [l|]; [eauto|destruct I].
Qed.
Lemma has_dec d n : has_signal d n \/ ~ has_signal d n.
Proof.
  destruct (snd (default_signal d n)) eqn:E.
  - left. unfold default_signal in E. unfold has_signal. destruct (x_signal d) as [m|] eqn:X.
    + destruct (chars_eqb n m) eqn:Q; [apply ceqb in Q; subst; now left|]. destruct (existsb _ _) eqn:S1; [|discriminate]. apply existsb_exists in S1 as (k & I & K). apply ceqb in K. subst k. apply in_app_or in I as [I|I].
      * unfold sigs in I. rewrite X in I. destruct I as [->|[]]. now left.
      * right. unfold auxs in I. destruct (x_aux d); [eauto|destruct I].
    + destruct (existsb _ _) eqn:S1; [|discriminate]. apply existsb_exists in S1 as (k & I & K). apply ceqb in K. subst k. apply in_app_or in I as [I|I].
      * unfold sigs in I. rewrite X in I. destruct I.
      * right. unfold auxs in I. destruct (x_aux d); [eauto|destruct I].
  - right. intros H. apply (proj1 (default_signal_has d n)) in H as [H _]. congruence.
Qed.
Lemma select_some n : forall l sel i, exists r s, select l (Some n) sel i = Ok (r, s) /\ r = map (fun d => fst (default_signal d n)) l /\
  (forall k d, nth_error l k = Some d -> has_signal d n -> (forall k' d', k < k' -> nth_error l k' = Some d' -> ~ has_signal d' n) -> s = Some (i + k)) /\
  ((forall d, In d l -> ~ has_signal d n) -> s = sel).
Proof.
  induction l as [|d l IH]; intros sel i; [exists [], sel; repeat split; intros [|k]; discriminate|].
  cbn [select map]. destruct (default_signal d n) as [d' b] eqn:D. destruct (IH (if b then Some i else sel) (S i)) as (r & s & E & R & A & B). rewrite E. cbn [bind]. exists (d' :: r), s. split; [reflexivity|]. split; [cbn [fst]; now rewrite R|]. split.
  - intros [|k] d0 N H U.
    + cbn in N. assert (d0 = d) as -> by congruence. rewrite B.
      * pose proof (proj1 (default_signal_has d n) H) as [Q _]. rewrite D in Q. cbn in Q. subst b. f_equal. lia.
      * intros d1 I. apply In_nth_error in I as (k & I). apply (U (S k) d1); [lia|exact I].
    + cbn in N. rewrite (A k d0 N H); [f_equal; lia|]. intros k' d1 L N'. apply (U (S k') d1); [lia|exact N'].
  - intros H. rewrite B by (intros; apply H; now right). pose proof (proj2 (default_signal_has d n) (H d (or_introl eq_refl))) as Q. rewrite D in Q. assert (b = false) as -> by congruence. reflexivity.
Qed.
Theorem selected l n : exists r s, set_default l (Some n) = Ok (r, s) /\
  Forall2 (fun d d' => (has_signal d n -> x_signal d' = Some n) /\ (~ has_signal d n -> d' = d)) l r /\
  (forall k d, nth_error l k = Some d -> has_signal d n -> (forall k' d', k < k' -> nth_error l k' = Some d' -> ~ has_signal d' n) -> s = Some k) /\
  ((forall d, In d l -> ~ has_signal d n) -> s = None).
Proof.
  destruct (select_some n l None 0) as (r & s & E & R & A & B). exists r, s. split; [exact E|]. split; [|split; [exact A|exact B]]. subst r. clear. induction l as [|d l IH]; constructor; [|exact IH].
  destruct (default_signal_has d n) as [P Q]. split; [intros H; now apply P|intros H; now rewrite (Q H)].
Qed.
Theorem selected_none d l : (forall n, x_signal d = Some n -> set_default (d :: l) None = set_default (d :: l) (Some n)) /\ (x_signal d = None -> set_default (d :: l) None = Err AttributeError).
Proof.
  unfold set_default. cbn [select]. split.
  - intros n X. rewrite X. unfold default_signal. rewrite X. assert (chars_eqb n n = true) as -> by now apply ceqb. reflexivity.
  - intros X. now rewrite X.
Qed.
Theorem last_selected d l n k d' : x_signal d = Some n -> nth_error l k = Some d' -> has_signal d' n -> exists r j, set_default (d :: l) None = Ok (r, Some j) /\ S k <= j.
Proof.
  intros X N H. rewrite (proj1 (selected_none d l) n X). destruct (selected (d :: l) n) as (r & s & E & _ & A & _). exists r. rewrite E.
  assert (exists k2 d2, S k <= k2 /\ nth_error (d :: l) k2 = Some d2 /\ has_signal d2 n /\ forall k' d', k2 < k' -> nth_error (d :: l) k' = Some d' -> ~ has_signal d' n) as (k2 & d2 & L & N2 & H2 & U).
  { assert (forall f, S k <= f -> (exists k2 d2, S k <= k2 /\ nth_error (d :: l) k2 = Some d2 /\ has_signal d2 n /\ forall k' d', k2 < k' < f -> nth_error (d :: l) k' = Some d' -> ~ has_signal d' n)) as G.
    { induction f as [|f IHf]; intros F; [lia|]. destruct (Nat.eq_dec (S k) (S f)) as [Q|Q].
      - exists (S k), d'. split; [lia|]. split; [exact N|]. split; [exact H|]. intros; lia.
      - destruct IHf as (k2 & d2 & L & N2 & H2 & U); [lia|]. destruct (nth_error (d :: l) f) as [df|] eqn:NF.
        + destruct (has_dec df n) as [HF|HF].
          * exists f, df. split; [lia|]. split; [exact NF|]. split; [exact HF|]. intros; lia.
          * exists k2, d2. split; [exact L|]. split; [exact N2|]. split; [exact H2|]. intros k' d'' K NK. destruct (Nat.eq_dec k' f) as [->|]; [assert (d'' = df) as -> by congruence; exact HF|]. apply (U k'); [lia|exact NK].
        + exists k2, d2. split; [exact L|]. split; [exact N2|]. split; [exact H2|]. intros k' d'' K NK. destruct (Nat.eq_dec k' f) as [->|]; [congruence|]. apply (U k'); [lia|exact NK]. }
    assert (S k < List.length (d :: l)) as L0 by (apply nth_error_Some; cbn; congruence). destruct (G (List.length (d :: l))) as (k2 & d2 & L & N2 & H2 & U); [lia|]. exists k2, d2. repeat split; try assumption.
    intros k' d'' K NK. apply (U k'); [|exact NK]. split; [exact K|]. apply nth_error_Some. congruence. }
  exists k2. rewrite (A k2 d2 N2 H2 U). auto.
Qed.
(* ---- marks ---- *)
Lemma map_seq_S {B} (f : nat -> B) n : map f (seq 0 (S n)) = f 0 :: map (fun k => f (S k)) (seq 0 n).
Proof. cbn [seq map]. now rewrite <- seq_shift, map_map. Qed.
Definition mark_of (names : list chars) (r : list chars) (parents : list group) (k : nat) : option mark :=
  match nth_error parents k with Some (_, Some _) => Some (MDefault (rev (firstn (S k) names) ++ r)) | _ => None end.
Lemma marks_plain e t : forall mids path r, plain path -> Forall plain mids ->
  marks path (Some r) (mids ++ [(e, Some NXentry); (t, Some NXroot)]) =
  map (mark_of (map fst (path :: mids)) r (mids ++ [(e, Some NXentry)])) (seq 0 (S (List.length mids))) ++ [Some (MDefault [e])].
Proof.
  induction mids as [|g mids IH]; intros path r P F.
  - destruct path as [p c]. destruct P as [P|P]; cbn in P; subst c; reflexivity.
  - inversion F as [|? ? G F']. subst. cbn [app marks].
    assert (is_class (snd g) NXdata = false) as -> by (destruct G as [-> | ->]; reflexivity). assert (is_class (snd path) NXentry = false) as -> by (destruct P as [-> | ->]; reflexivity). assert (is_class (snd path) NXdata = false) as -> by (destruct P as [-> | ->]; reflexivity).
    rewrite (IH g (fst path :: r) G F'). cbn [List.length]. rewrite (map_seq_S _ (S (List.length mids))).
    assert (forall X, match snd g with None => None :: X | Some c => if class_eqb c NXroot then Some (MDefault (fst path :: r)) :: map (fun _ => None) (mids ++ [(e, Some NXentry); (t, Some NXroot)]) else Some (MDefault (fst path :: r)) :: X end = mark_of (map fst (path :: g :: mids)) r ((g :: mids) ++ [(e, Some NXentry)]) 0 :: X) as Q.
    { intros X. unfold mark_of. destruct g as [gn gc]. destruct G as [G|G]; cbn in G; subst gc; reflexivity. }
    cbv zeta. rewrite Q. cbn [app]. f_equal. f_equal. apply map_ext. intros k. unfold mark_of. cbn [nth_error map]. destruct (nth_error (mids ++ [(e, Some NXentry)]) k) as [[a [b|]]|]; try reflexivity.
    cbn [firstn rev]. f_equal. f_equal. rewrite <- !app_assoc. reflexivity.
Qed.
Theorem marked name mids e t : Forall plain mids -> (forall g, hd_error mids = Some g -> snd g = Some NXother) ->
  mark_default ((name, Some NXdata) :: mids ++ [(e, Some NXentry); (t, Some NXroot)]) =
  map (fun k => match nth_error (mids ++ [(e, Some NXentry)]) k with Some (_, Some _) => Some (MDefault (rev (firstn (S k) (name :: map fst mids)))) | _ => None end) (seq 0 (S (List.length mids))) ++ [Some (MDefault [e])].
Proof.
  intros F H. cbn [mark_default]. destruct mids as [|g mids].
  - reflexivity.
  - inversion F as [|? ? G F']. subst. specialize (H g eq_refl). destruct g as [gn gc]. cbn in H. subst gc. cbn [app marks snd fst is_class class_eqb].
    rewrite (marks_plain e t mids (gn, Some NXother) [name] G F'). cbn [List.length]. rewrite (map_seq_S _ (S (List.length mids))). cbn [app nth_error firstn rev]. reflexivity.
Qed.
Lemma marks_none e t : forall mids path, plain path \/ (snd path = Some NXdata /\ exists g, hd_error mids = Some g /\ snd g = None) -> Forall plain mids ->
  marks path None (mids ++ [(e, Some NXentry); (t, Some NXroot)]) = repeat None (S (List.length mids)) ++ [Some (MDefault [e])].
Proof.
  induction mids as [|g mids IH]; intros path P F.
  - destruct P as [P|(_ & g & P & _)]; [|discriminate]. destruct path as [p c]. destruct P as [P|P]; cbn in P; subst c; reflexivity.
  - inversion F as [|? ? G F']. subst. cbn [app marks List.length].
    assert (is_class (snd g) NXdata = false) as -> by (destruct G as [-> | ->]; reflexivity).
    assert (is_class (snd path) NXentry = false) as -> by (destruct P as [[-> | ->]|[-> _]]; reflexivity).
    assert (marks g None (mids ++ [(e, Some NXentry); (t, Some NXroot)]) = repeat None (S (List.length mids)) ++ [Some (MDefault [e])]) as E by (apply IH; [left; exact G|exact F']).
    destruct P as [P|(P & g' & P2 & P3)].
    + assert (is_class (snd path) NXdata = false) as -> by (destruct P as [-> | ->]; reflexivity). cbv zeta. destruct G as [-> | ->]; cbn [class_eqb]; rewrite E; reflexivity.
    + cbn in P2. assert (g' = g) as -> by congruence. rewrite P3. rewrite E. reflexivity.
Qed.
Theorem unmarked mids path e t : Forall plain mids -> plain path \/ (snd path = Some NXdata /\ exists g, hd_error mids = Some g /\ snd g = None) ->
  mark_default (path :: mids ++ [(e, Some NXentry); (t, Some NXroot)]) = repeat None (S (List.length mids)) ++ [Some (MDefault [e])].
Proof. intros F P. exact (marks_none e t mids path P F). Qed.
Theorem signal_marked n d c up : mark_default ((n, c) :: (d, Some NXdata) :: up) = Some (MSignal n) :: mark_default ((d, Some NXdata) :: up).
Proof. reflexivity. Qed.
