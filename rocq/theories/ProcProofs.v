From Coq Require Import String.
From Verif Require Import BaseProofs HashSpec HashProofs NameProofs TextProofs ProcSpec.
Close Scope string_scope.

(* ---- names and association lists ---- *)
Lemma chars_eqb_refl a : chars_eqb a a = true.
Proof. now apply chars_eqb_spec. Qed.
Lemma ltb_irrefl a : chars_ltb a a = false.
Proof.
  induction a as [|c a IH]; [reflexivity|]. cbn [chars_ltb]. rewrite Nat.ltb_irrefl, ascii_eqb_refl. exact IH.
Qed.
Lemma ltb_trans a b c : chars_ltb a b = true -> chars_ltb b c = true -> chars_ltb a c = true.
Proof.
  revert b c. induction a as [|x a IH]; intros [|y b] [|z c]; cbn [chars_ltb]; try congruence.
  destruct (Nat.ltb_spec (nat_of_ascii x) (nat_of_ascii y)) as [L|L].
  - intros _. destruct (Nat.ltb_spec (nat_of_ascii y) (nat_of_ascii z)) as [M|M].
    + intros _. destruct (Nat.ltb_spec (nat_of_ascii x) (nat_of_ascii z)); [reflexivity|lia].
    + destruct (ascii_eqb y z) eqn:E; [|discriminate]. apply ascii_eqb_spec in E as ->. intros _.
      destruct (Nat.ltb_spec (nat_of_ascii x) (nat_of_ascii z)); [reflexivity|lia].
  - destruct (ascii_eqb x y) eqn:E; [|discriminate]. apply ascii_eqb_spec in E as ->. intros A.
    destruct (Nat.ltb_spec (nat_of_ascii y) (nat_of_ascii z)) as [M|M]; [reflexivity|].
    destruct (ascii_eqb y z); [now apply IH|discriminate].
Qed.
Lemma ltb_total a b : chars_ltb a b = false -> a = b \/ chars_ltb b a = true.
Proof.
  revert b. induction a as [|x a IH]; intros [|y b]; cbn [chars_ltb]; auto; try discriminate.
  destruct (Nat.ltb_spec (nat_of_ascii x) (nat_of_ascii y)) as [L|L]; [discriminate|].
  destruct (ascii_eqb x y) eqn:E.
  - apply ascii_eqb_spec in E as ->. intros H. destruct (IH b H) as [->|G]; [now left|right].
    rewrite Nat.ltb_irrefl, ascii_eqb_refl. exact G.
  - intros _. right. destruct (Nat.ltb_spec (nat_of_ascii y) (nat_of_ascii x)) as [M|M]; [reflexivity|].
    exfalso. assert (Q : nat_of_ascii x = nat_of_ascii y) by lia.
    apply (f_equal ascii_of_nat) in Q. rewrite !ascii_nat_embedding in Q. subst. rewrite ascii_eqb_refl in E. discriminate.
Qed.
Lemma ltb_app a c b : chars_ltb a (a ++ c :: b) = true.
Proof. induction a as [|x a IH]; [reflexivity|]. cbn [app chars_ltb]. rewrite Nat.ltb_irrefl, ascii_eqb_refl. exact IH. Qed.

Lemma sorted_cons {A} k (v : A) l : keys_sorted ((k, v) :: l) <->
  keys_sorted l /\ forall k' v', In (k', v') l -> chars_ltb k k' = true.
Proof.
  unfold keys_sorted. cbn. split.
  - intros H. inversion H as [|? ? S F]. split; [exact S|]. rewrite Forall_forall in F.
    intros k' v' I. apply F. change k' with (fst (k', v')). now apply in_map.
  - intros [S F]. constructor; [exact S|]. apply Forall_forall. intros x I. apply in_map_iff in I as ([k' v'] & <- & I).
    now apply F in I.
Qed.
Lemma lookup_in {A} k (v : A) l : keys_sorted l -> (lookup k l = Some v <-> In (k, v) l).
Proof.
  induction l as [|[k' v'] l IH]; intros S; cbn [lookup]; [split; [discriminate|intros []]|].
  apply sorted_cons in S as [S F]. destruct (chars_eqb k k') eqn:E.
  - apply chars_eqb_spec in E as <-. split; [intros [= ->]; now left|]. intros [[= ->]|I]; [reflexivity|].
    apply F in I. now rewrite ltb_irrefl in I.
  - rewrite (IH S). split; [now right|]. intros [[= -> ->]|I]; [|exact I]. now rewrite chars_eqb_refl in E.
Qed.
Lemma lookup_none {A} k (l : list (chars * A)) : lookup k l = None <-> forall v, ~ In (k, v) l.
Proof.
  induction l as [|[k' v'] l IH]; cbn [lookup]; [split; [intros _ v []|reflexivity]|].
  destruct (chars_eqb k k') eqn:E.
  - apply chars_eqb_spec in E as <-. split; [discriminate|]. intros H. exfalso. apply (H v'). now left.
  - rewrite IH. split; intros H v I; [|apply (H v); now right]. destruct I as [[= -> ->]|I]; [|now apply (H v)].
    now rewrite chars_eqb_refl in E.
Qed.
Lemma insert_in {A} k (v : A) l x : In x (insert k v l) <-> x = (k, v) \/ In x l.
Proof.
  induction l as [|[k' v'] l IH]; cbn [insert]; [cbn; intuition|].
  destruct (chars_ltb k k'); cbn [In]; [intuition|]. rewrite IH. intuition.
Qed.
Lemma insert_sorted {A} k (v : A) l : keys_sorted l -> lookup k l = None -> keys_sorted (insert k v l).
Proof.
  induction l as [|[k' v'] l IH]; intros S N; cbn [insert].
  - apply sorted_cons. split; [constructor|intros k' v' []].
  - cbn [lookup] in N. destruct (chars_eqb k k') eqn:E; [discriminate|].
    pose proof S as S0. apply sorted_cons in S as [S F]. destruct (chars_ltb k k') eqn:L.
    + apply sorted_cons. split; [exact S0|]. intros k2 v2 [[= <- <-]|I]; [exact L|].
      apply (ltb_trans k k'); [exact L|now apply F in I].
    + apply sorted_cons. split; [now apply IH|]. intros k2 v2 I. apply insert_in in I as [[= -> ->]|I]; [|now apply F in I].
      destruct (ltb_total k k' L) as [->|G]; [|exact G]. now rewrite chars_eqb_refl in E.
Qed.
Lemma replace_keys {A} k (v : A) l : map fst (replace_at k v l) = map fst l.
Proof.
  induction l as [|[k' v'] l IH]; [reflexivity|]. cbn [replace_at]. destruct (chars_eqb k k') eqn:E; [reflexivity|].
  cbn [map]. now rewrite IH.
Qed.
Lemma replace_sorted {A} k (v : A) l : keys_sorted l -> keys_sorted (replace_at k v l).
Proof. unfold keys_sorted. now rewrite replace_keys. Qed.
Lemma replace_in {A} k (v v0 : A) l : keys_sorted l -> In (k, v0) l ->
  forall k' v', In (k', v') (replace_at k v l) <-> (k' = k /\ v' = v) \/ (k' <> k /\ In (k', v') l).
Proof.
  induction l as [|[k1 v1] l IH]; intros S I k' v'; [destruct I|]. apply sorted_cons in S as [S F].
  cbn [replace_at]. destruct (chars_eqb k k1) eqn:E.
  - apply chars_eqb_spec in E as <-. split.
    + intros [[= <- <-]|J]; [now left|]. right. split; [|now right]. intros ->. apply F in J. now rewrite ltb_irrefl in J.
    + intros [[-> ->]|[N [[= -> ->]|J]]]; [now left|congruence|now right].
  - destruct I as [[= -> ->]|I]; [now rewrite chars_eqb_refl in E|]. cbn [In]. rewrite (IH S I).
    split.
    + intros [[= <- <-]|[[-> ->]|[N J]]]; [right|now left|right; split; [exact N|now right]].
      split; [|now left]. intros ->. now rewrite chars_eqb_refl in E.
    + intros [[-> ->]|[N [[= -> ->]|J]]]; [right; now left|now left|right; right; now split].
Qed.
Lemma sorted_fun {A} (l : list (chars * A)) k v v' : keys_sorted l -> In (k, v) l -> In (k, v') l -> v = v'.
Proof.
  intros S I J. apply (lookup_in k v l S) in I. apply (lookup_in k v' l S) in J. congruence.
Qed.

(* ---- checksums ---- *)
Section Md5.
Context (md5 : string -> string).

Lemma flat_hash l : (forall x, In x l -> height x = 1%nat) -> exists h, calchash md5 0 (PSeq KTuple l) = Ok h.
Proof.
  intros H. apply calchash_ok_iff. cbn [height].
  assert (M : (list_max (map height l) <= 1)%nat).
  { apply list_max_le. apply Forall_forall. intros n I. apply in_map_iff in I as (x & <- & I). rewrite H by exact I. lia. }
  lia.
Qed.
Lemma mergehash_ok deps h : exists s, mergehash md5 (deps ++ [h]) = Ok s.
Proof.
  destruct deps as [|d deps]; [exists h; reflexivity|].
  cbn [app mergehash]. destruct (deps ++ [h]) as [|x l] eqn:E; [now destruct deps|].
  rewrite <- E. apply flat_hash. intros y I. apply in_map_iff in I as (t & <- & _). reflexivity.
Qed.
Lemma checksum_ok deps conf : exists s, checksum_of md5 deps conf = Ok s.
Proof.
  destruct conf as [h|]; cbn [checksum_of].
  - destruct (mergehash_ok deps h) as (s & ->). now exists (Some s).
  - destruct deps as [|d deps]; [now exists None|].
    destruct (flat_hash (map (PStr true) (d :: deps) ++ [PNone])) as (s & ->); [|now exists (Some s)].
    intros y I. apply in_app_iff in I as [I|[<-|[]]]; [|reflexivity]. apply in_map_iff in I as (t & <- & _). reflexivity.
Qed.
Lemma proc_checksum_ok p : exists s, proc_checksum md5 p = Ok s.
Proof. unfold proc_checksum. destruct (p_stored p); [eexists; reflexivity|apply checksum_ok]. Qed.

Definition good_sum (p : proc) (sum : string) : Prop := proc_checksum md5 p = Ok (Some sum).
Lemma has_checksum_spec p sum : exists b, has_checksum md5 p sum = Ok b /\ (b = true <-> good_sum p sum).
Proof.
  unfold has_checksum, good_sum. destruct (proc_checksum_ok p) as (s & ->). destruct s as [s|].
  - exists (String.eqb s sum). split; [reflexivity|]. rewrite String.eqb_eq. split; [now intros ->|now intros [= ->]].
  - exists false. split; [reflexivity|]. split; discriminate.
Qed.

Lemma name_matches_spec name s : exists b, name_matches name s = Some b /\ (b = true <-> good_match name s).
Proof.
  unfold name_matches, good_match. destruct name as [|c name].
  - exists true. split; [reflexivity|]. split; [now left|reflexivity].
  - destruct (matches_total (c :: name) s) as (b & E). exists b. split; [exact E|].
    pose proof (matches_spec (c :: name) s) as M. rewrite E in M. split.
    + intros ->. right. now apply M.
    + intros [F|G]; [discriminate|]. apply M in G. congruence.
Qed.

(* what the search is looking for *)
Definition hit (name : chars) (sum : string) (x : chars * chars * proc) : Prop :=
  good_match name (snd (fst x)) /\ good_sum (snd x) sum.
Lemma find_in_spec name sum l : exists o, find_in md5 name sum l = Some (Ok o) /\
  match o with
  | None => forall x, In x l -> ~ hit name sum x
  | Some (e, n) => exists p l1 l2, l = l1 ++ (e, n, p) :: l2 /\ hit name sum (e, n, p) /\
                     forall x, In x l1 -> ~ hit name sum x
  end.
Proof.
  induction l as [|[[e n] p] l IH]; cbn [find_in]; [exists None; split; [reflexivity|intros x []]|].
  destruct (name_matches_spec name n) as (b & -> & M).
  assert (Next : ~ hit name sum (e, n, p) -> exists o, find_in md5 name sum l = Some (Ok o) /\
    match o with
    | None => forall x, In x ((e, n, p) :: l) -> ~ hit name sum x
    | Some (e', n') => exists p' l1 l2, (e, n, p) :: l = l1 ++ (e', n', p') :: l2 /\ hit name sum (e', n', p') /\
                       forall x, In x l1 -> ~ hit name sum x
    end).
  { intros N. destruct IH as (o & E & H). exists o. split; [exact E|]. destruct o as [[e' n']|].
    - destruct H as (p' & l1 & l2 & -> & A & B). exists p', ((e, n, p) :: l1), l2. split; [reflexivity|].
      split; [exact A|]. intros x [<-|I]; [exact N|now apply B].
    - intros x [<-|I]; [exact N|now apply H]. }
  destruct b.
  - destruct (has_checksum_spec p sum) as (b & -> & S). destruct b.
    + exists (Some (e, n)). split; [reflexivity|]. exists p, [], l. split; [reflexivity|].
      split; [split; [now apply M|now apply S]|intros x []].
    + apply Next. intros [_ G]. apply S in G. discriminate.
  - apply Next. intros [G _]. apply M in G. discriminate.
Qed.

(* only one hit: it is found *)
Lemma find_in_only name sum l e n p : In (e, n, p) l -> hit name sum (e, n, p) ->
  (forall x, In x l -> hit name sum x -> fst x = (e, n)) ->
  find_in md5 name sum l = Some (Ok (Some (e, n))).
Proof.
  intros I H U. destruct (find_in_spec name sum l) as (o & E & S). rewrite E. destruct o as [[e' n']|].
  - destruct S as (p' & l1 & l2 & -> & A & _). do 3 f_equal.
    now apply (U (e', n', p')); [apply in_elt|].
  - exfalso. now apply (S _ I).
Qed.

(* ---- where the search looks ---- *)
Lemma processes_in e g e' n p : In (e', n, p) (processes e g) <-> e' = e /\ In (n, Proc p) (g_kids g).
Proof.
  unfold processes. rewrite in_flat_map. split.
  - intros ([k x] & I & J). cbn in J. destruct x as [q|]; [|destruct J]. destruct J as [[= <- <- <-]|[]]. now split.
  - intros [-> I]. exists (n, Proc p). split; [exact I|]. now left.
Qed.
Lemma is_entry_spec g : is_entry g = true <-> g_cls g = CEntry.
Proof. unfold is_entry. destruct (g_cls g); split; congruence. Qed.
Lemma all_in f e n p : In (e, n, p) (all_processes f) <->
  exists g, In (e, g) f /\ g_cls g = CEntry /\ In (n, Proc p) (g_kids g).
Proof.
  unfold all_processes. rewrite in_flat_map. split.
  - intros ([k g] & I & J). cbn in J. destruct (is_entry g) eqn:E; [|destruct J].
    apply processes_in in J as [-> J]. exists g. apply is_entry_spec in E. now repeat split.
  - intros (g & I & E & J). exists (e, g). split; [exact I|]. cbn. apply is_entry_spec in E. rewrite E.
    now apply processes_in.
Qed.
Lemma first_entry_spec f here : wf f ->
  match first_entry f here with
  | Some (e, g) => here = Some e /\ In (e, g) f /\ g_cls g = CEntry
  | None => forall h, here = Some h -> ~ entry f h
  end.
Proof.
  intros [W _]. unfold first_entry. destruct here as [e|]; [|discriminate].
  destruct (lookup e f) as [g|] eqn:L.
  - apply (lookup_in e g f W) in L. destruct (is_entry g) eqn:E.
    + apply is_entry_spec in E. now repeat split.
    + intros h [= <-] (g' & I & C). rewrite (sorted_fun f e g' g W I L) in C. apply is_entry_spec in C. congruence.
  - intros h [= <-] (g' & I & C). now apply (proj1 (lookup_none e f) L g').
Qed.
Lemma iter_in f here all e n p : wf f ->
  (In (e, n, p) (iter_processes f here all) <-> in_scope f here all e /\ member f e n (Proc p)).
Proof.
  intros W. unfold iter_processes, in_scope.
  assert (A : In (e, n, p) (all_processes f) <-> entry f e /\ member f e n (Proc p)).
  { rewrite all_in. split.
    - intros (g & I & C & J). split; exists g; now split.
    - intros [(g & I & C) (g' & I' & J)]. rewrite (sorted_fun f e g' g (proj1 W) I' I) in J. exists g. now repeat split. }
  destruct all.
  - rewrite A. split; [intros [B C]; repeat split; auto; discriminate|tauto].
  - pose proof (first_entry_spec f here W) as F. destruct (first_entry f here) as [[h g]|].
    + destruct F as (-> & I & C). rewrite processes_in. split.
      * intros [-> J]. split; [|now exists g]. split; [now exists g|]. now intros _ h' [= <-].
      * intros [[E H] (g' & I' & J)].
        assert (e = h) as -> by (apply H; [reflexivity|reflexivity|now exists g]). split; [reflexivity|].
        now rewrite (sorted_fun f h g g' (proj1 W) I I').
    + rewrite A. split; [|tauto]. intros [B C]. repeat split; auto. intros _ h E H. now destruct (F h E).
Qed.

(* ---- creation ---- *)
Lemma root_finite f : finite (root_exists f) ([] :: map fst f).
Proof.
  intros s H. destruct s as [|c s]; [now left|right]. cbn [root_exists] in H.
  destruct (lookup (c :: s) f) as [g|] eqn:L; [|discriminate].
  destruct (in_dec (list_eq_dec ascii_dec) (c :: s) (map fst f)) as [I|N]; [exact I|exfalso].
  assert (K : lookup (c :: s) f = None).
  { apply lookup_none. intros v I. apply N. change (c :: s) with (fst (c :: s, v)). now apply in_map. }
  congruence.
Qed.
Lemma kids_finite g : finite (kid_exists g) ([] :: map fst (g_kids g)).
Proof.
  intros s H. destruct s as [|c s]; [now left|right]. cbn [kid_exists] in H.
  destruct (lookup (c :: s) (g_kids g)) as [x|] eqn:L; [|discriminate].
  destruct (in_dec (list_eq_dec ascii_dec) (c :: s) (map fst (g_kids g))) as [I|N]; [exact I|exfalso].
  assert (K : lookup (c :: s) (g_kids g) = None).
  { apply lookup_none. intros v I. apply N. change (c :: s) with (fst (c :: s, v)). now apply in_map. }
  congruence.
Qed.

Lemma init_entry_spec f name f1 e : wf f -> init_entry f name = Ok (f1, e) ->
  wf f1 /\ e = name /\ entry f1 e /\ (forall e' n x, member f e' n x <-> member f1 e' n x) /\
  (forall e', entry f1 e' <-> e' = e \/ entry f e') /\
  (~ entry f e -> forall n p, ~ member f e n (Proc p)).
Proof.
  intros [S W] H. unfold init_entry in H. destruct (lookup name f) as [g|] eqn:L.
  - apply (lookup_in name g f S) in L. destruct (g_cls g) eqn:C.
    + injection H as <- <-. split; [now split|]. split; [reflexivity|]. split; [now exists g|].
      split; [tauto|]. split; [|intros N; exfalso; apply N; now exists g].
      intros e'. split; [now right|]. intros [->|E]; [now exists g|exact E].
    + injection H as <- <-.
      set (g1 := mkGroup CEntry (g_kids g)).
      assert (R := replace_in name g1 g f S L).
      split; [split; [now apply replace_sorted|]|].
      { intros e' g' I. apply R in I as [[-> ->]|[N I]]; [|now apply W with e']. cbn.
        split; [now apply (W name g L)|congruence]. }
      split; [reflexivity|]. split; [exists g1; split; [apply R; now left|reflexivity]|].
      split; [|split].
      * intros e' n x. split.
        -- intros (g' & I & J). destruct (list_eq_dec ascii_dec e' name) as [->|N].
           ++ exists g1. split; [apply R; now left|]. cbn. now rewrite (sorted_fun f name g g' S L I).
           ++ exists g'. split; [apply R; right; now split|exact J].
        -- intros (g' & I & J). apply R in I as [[-> ->]|[N I]]; [exists g; now split|exists g'; now split].
      * intros e'. split.
        -- intros (g' & I & J). apply R in I as [[-> ->]|[N I]]; [now left|right; now exists g'].
        -- intros [->|(g' & I & J)]; [exists g1; split; [apply R; now left|reflexivity]|].
           destruct (list_eq_dec ascii_dec e' name) as [->|N]; [exists g1; split; [apply R; now left|reflexivity]|].
           exists g'. split; [apply R; right; now split|exact J].
      * intros _ n p (g' & I & J). rewrite (sorted_fun f name g' g S I L) in J.
        apply (proj2 (W name g L)) in J; [exact J|congruence].
    + discriminate H.
  - injection H as <- <-. pose proof (proj1 (lookup_none name f) L) as N.
    split; [split; [now apply insert_sorted|]|].
    { intros e' g' I. apply insert_in in I as [[= -> ->]|I]; [|now apply W with e']. cbn. split; [constructor|congruence]. }
    split; [reflexivity|]. split; [exists (mkGroup CEntry []); split; [apply insert_in; now left|reflexivity]|].
    split; [|split].
    + intros e' n x. split; intros (g' & I & J).
      * exists g'. split; [apply insert_in; now right|exact J].
      * apply insert_in in I as [[= -> ->]|I]; [destruct J|exists g'; now split].
    + intros e'. split.
      * intros (g' & I & J). apply insert_in in I as [[= -> ->]|I]; [now left|right; now exists g'].
      * intros [->|(g' & I & J)]; [exists (mkGroup CEntry []); split; [apply insert_in; now left|reflexivity]|].
        exists g'. split; [apply insert_in; now right|exact J].
    + intros _ n p (g' & I & J). now apply (N g').
Qed.
Lemma nxentry_spec f here f1 e : wf f -> nxentry f here = Some (Ok (f1, e)) ->
  wf f1 /\ entry f1 e /\ (forall e' n x, member f e' n x <-> member f1 e' n x) /\
  (forall e', entry f1 e' <-> e' = e \/ entry f e') /\
  (~ entry f e -> forall n p, ~ member f e n (Proc p)) /\
  (forall h, here = Some h -> e = h).
Proof.
  intros W H. unfold nxentry in H. pose proof (first_entry_spec f here W) as F.
  destruct (first_entry f here) as [[h g]|].
  - injection H as <- <-. destruct F as (-> & I & C).
    assert (E : entry f h) by now exists g.
    split; [exact W|]. split; [exact E|]. split; [tauto|].
    split; [intros e'; split; [now right|intros [->|G]; assumption]|]. split; [now intros N|now intros ? [= <-]].
  - destruct here as [h|].
    + injection H as H. destruct (init_entry_spec f h f1 e W H) as (A & -> & B & C & D & E).
      split; [exact A|]. split; [exact B|]. split; [exact C|]. split; [exact D|]. split; [exact E|]. now intros ? [= <-].
    + destruct (next_nxentry_name _ _ _) as [[n|x]|]; [|discriminate|discriminate]. injection H as H.
      destruct (init_entry_spec f n f1 e W H) as (A & -> & B & C & D & E).
      split; [exact A|]. split; [exact B|]. split; [exact C|]. split; [exact D|]. split; [exact E|]. discriminate.
Qed.

Lemma kid_exists_spec g c s : keys_sorted (g_kids g) -> kid_exists g (c :: s) = false -> forall x, ~ In (c :: s, x) (g_kids g).
Proof.
  intros S H. cbn [kid_exists] in H. apply lookup_none. now destruct (lookup (c :: s) (g_kids g)).
Qed.
Lemma same_name_refl name : same_name name name.
Proof.
  destruct (number_cases name) as [H | (pre & ds & post & H)].
  - left. now split.
  - right. right. exists pre, ds, post, ds. pose proof H as (E & N & D & _).
    exact (conj H (conj N (conj D E))).
Qed.
Lemma nth_same_name name k s : nth_name name k s -> same_name name s.
Proof.
  intros [(H & ds & -> & D & T & N & V) | (pre & ds & post & ds' & L & -> & D & V & W & T)].
  - right. left. split; [exact H|]. exists ds. now repeat split.
  - right. right. exists pre, ds, post, ds'. split; [exact L|]. split; [|now split].
    intros ->. destruct L as (_ & N & _). destruct ds; [congruence|cbn in W; lia].
Qed.
Lemma nth_nonempty name k : nth_name name k [] -> False.
Proof.
  intros [(H & ds & E & _) | (pre & ds & post & ds' & L & E & D & V & W & T)].
  - now destruct name.
  - destruct pre; [|discriminate]. destruct ds'; [|discriminate]. destruct L as (_ & N & _).
    destruct ds; [congruence|cbn in W; lia].
Qed.
Lemma new_path_spec g name noincr n : keys_sorted (g_kids g) -> good_name name ->
  new_path g name noincr = Some (Ok n) ->
  n <> [] /\ same_name name n /\ (forall x, ~ In (n, x) (g_kids g)).
Proof.
  intros S [N B] H. unfold new_path in H. destruct (kid_exists g name) eqn:K.
  - destruct (noincr || negb (kid_is_proc g name)); [discriminate|].
    destruct (first_free_ok (kid_exists g) name ([] :: map fst (g_kids g)) (Datatypes.S (Datatypes.S (length (g_kids g)))) B (kids_finite g))
      as (m & k & s & E & E2 & _ & Q & X & _).
    { cbn. rewrite map_length. lia. }
    rewrite E, E2 in H. injection H as <-.
    assert (NE : s <> []) by (intros ->; now apply (nth_nonempty name k)).
    split; [exact NE|]. split; [now apply nth_same_name in Q|]. destruct s; [congruence|]. now apply kid_exists_spec.
  - injection H as <-. split; [exact N|]. split; [apply same_name_refl|]. destruct name; [congruence|]. now apply kid_exists_spec.
Qed.
Lemma new_path_total g name noincr : good_name name -> exists r, new_path g name noincr = Some r.
Proof.
  intros [N B]. unfold new_path. destruct (kid_exists g name); [|eexists; reflexivity].
  destruct (noincr || negb (kid_is_proc g name)); [eexists; reflexivity|].
  destruct (first_free_ok (kid_exists g) name ([] :: map fst (g_kids g)) (Datatypes.S (Datatypes.S (length (g_kids g)))) B (kids_finite g))
      as (m & k & s & E & E2 & _).
  { cbn. rewrite map_length. lia. }
  rewrite E, E2. eexists. reflexivity.
Qed.

Lemma add_kid_spec f e g n p : wf f -> In (e, g) f -> g_cls g = CEntry -> (forall x, ~ In (n, x) (g_kids g)) ->
  wf (add_kid f e n p) /\
  (forall e' n' x, member (add_kid f e n p) e' n' x <-> (e' = e /\ n' = n /\ x = Proc p) \/ member f e' n' x) /\
  (forall e', entry (add_kid f e n p) e' <-> entry f e').
Proof.
  intros [S W] I C N. unfold add_kid. rewrite (proj2 (lookup_in e g f S) I). rewrite C.
  set (g1 := mkGroup CEntry (insert n (Proc p) (g_kids g))).
  assert (R := replace_in e g1 g f S I).
  split; [split; [now apply replace_sorted|]|].
  { intros e' g' J. apply R in J as [[-> ->]|[M J]]; [|now apply W with e'].
    split; [|intros F; now destruct F]. cbn. apply insert_sorted; [now apply (W e g I)|now apply lookup_none]. }
  split.
  - intros e' n' x. split.
    + intros (g' & J & K). apply R in J as [[-> ->]|[M J]]; [|right; now exists g']. cbn in K.
      apply insert_in in K as [[= -> ->]|K]; [now left|right; now exists g].
    + intros [(-> & -> & ->)|(g' & J & K)].
      * exists g1. split; [apply R; now left|]. apply insert_in. now left.
      * destruct (list_eq_dec ascii_dec e' e) as [->|M].
        -- exists g1. split; [apply R; now left|]. apply insert_in. right. now rewrite (sorted_fun f e g g' S I J).
        -- exists g'. split; [apply R; right; now split|exact K].
  - intros e'. split.
    + intros (g' & J & K). apply R in J as [[-> ->]|[M J]]; [now exists g|now exists g'].
    + intros (g' & J & K). destruct (list_eq_dec ascii_dec e' e) as [->|M].
      * exists g1. split; [apply R; now left|reflexivity].
      * exists g'. split; [apply R; right; now split|exact K].
Qed.

Context (rt : pyval -> pyval).
Lemma set_config_stable deps params sum : stable md5 rt params -> calc_checksum md5 deps params = Ok sum ->
  exists h, set_config md5 rt deps params = (mkProc (Some sum) deps (Some h) [], Ok tt).
Proof.
  intros T H. unfold set_config. rewrite T. unfold calc_checksum in H.
  destruct (calchash md5 0 params) as [h|x]; [|discriminate]. cbn in H. exists h. cbn [checksum_of].
  now rewrite H.
Qed.

(* ---- the request ---- *)
(* everything about one request *)
Lemma nxprocess_cases f here name deps params all noincr f' r : wf f -> good_name name ->
  nxprocess md5 rt f here name deps params all noincr = Some (f', r) ->
  wf f' /\ extends f f' /\
  match r with
  | Err _ => True
  | Ok (e, n) =>
      exists sum, calc_checksum md5 deps params = Ok sum /\
        ((f' = f /\ find_nxprocess md5 f here name deps params all = Some (Ok (Some (e, n)))) \/
         ((forall x, In x (iter_processes f here all) -> ~ hit name sum x) /\
          unused f e n /\ n <> [] /\ same_name name n /\ (forall h, here = Some h -> e = h) /\
          (~ entry f e -> forall n p, ~ member f e n (Proc p)) /\
          exists p, set_config md5 rt deps params = (p, Ok tt) /\
            (forall e' n' x, member f' e' n' x <-> (e' = e /\ n' = n /\ x = Proc p) \/ member f e' n' x) /\
            (forall e', entry f' e' <-> e' = e \/ entry f e')))
  end.
Proof.
  intros W G H. unfold nxprocess in H.
  destruct (find_nxprocess md5 f here name deps params all) as [[[[e n]|]|x]|] eqn:F; [| | |discriminate].
  - injection H as <- <-. split; [exact W|]. split; [now intros ? ? ?|].
    unfold find_nxprocess in F. destruct (calc_checksum md5 deps params) as [sum|x] eqn:C; [|discriminate].
    exists sum. split; [reflexivity|]. now left.
  - destruct (nxentry f here) as [[[f1 e]|x]|] eqn:E; [| |discriminate].
    2:{ injection H as <- <-. split; [exact W|]. split; [now intros ? ? ?|trivial]. }
    destruct (nxentry_spec f here f1 e W E) as (W1 & E1 & M1 & En1 & NP & Hh).
    destruct (lookup e f1) as [g|] eqn:L; [|discriminate].
    apply (lookup_in e g f1 (proj1 W1)) in L.
    assert (Cg : g_cls g = CEntry).
    { destruct E1 as (g' & I & C). now rewrite (sorted_fun f1 e g g' (proj1 W1) L I). }
    destruct (new_path g name noincr) as [[n|x]|] eqn:P; [| |discriminate].
    2:{ injection H as <- <-. split; [exact W1|]. split; [|trivial]. intros ? ? ?. apply M1. }
    destruct (new_path_spec g name noincr n (proj1 (proj2 W1 e g L)) G P) as (Nn & Sn & Un).
    destruct (set_config md5 rt deps params) as [p q] eqn:Sc.
    destruct (add_kid_spec f1 e g n p W1 L Cg Un) as (W2 & M2 & En2).
    injection H as <- <-. split; [exact W2|]. split.
    { intros e' n' x I. apply M2. right. now apply M1. }
    destruct q as [[]|x]; [|trivial].
    unfold find_nxprocess in F. destruct (calc_checksum md5 deps params) as [sum|x] eqn:C; [|discriminate].
    exists sum. split; [reflexivity|]. right.
    destruct (find_in_spec name sum (iter_processes f here all)) as (o & Eo & So). rewrite Eo in F.
    injection F as ->. split; [exact So|]. split; [|split; [exact Nn|split; [exact Sn|split; [exact Hh|split; [exact NP|]]]]].
    { intros x I. apply M1 in I. destruct I as (g' & I & J). rewrite (sorted_fun f1 e g' g (proj1 W1) I L) in J. now apply (Un x). }
    exists p. split; [reflexivity|]. split.
    + intros e' n' x. rewrite M2. now rewrite M1.
    + intros e'. rewrite En2. apply En1.
  - injection H as <- <-. split; [exact W|]. split; [now intros ? ? ?|trivial].
Qed.

Lemma nxprocess_find f here name deps params all noincr loc :
  find_nxprocess md5 f here name deps params all = Some (Ok (Some loc)) ->
  nxprocess md5 rt f here name deps params all noincr = Some (f, Ok loc).
Proof. intros H. unfold nxprocess. now rewrite H. Qed.

Lemma nxprocess_again f here name deps params all noincr f' loc : wf f -> good_name name -> stable md5 rt params ->
  nxprocess md5 rt f here name deps params all noincr = Some (f', Ok loc) ->
  forall noincr', nxprocess md5 rt f' here name deps params all noincr' = Some (f', Ok loc).
Proof.
  intros W G T H noincr'. destruct (nxprocess_cases _ _ _ _ _ _ _ _ _ W G H) as (W' & X & K). destruct loc as [e n].
  destruct K as (sum & C & [[-> F]|(NH & U & Nn & Sn & Hh & NP & p & Sc & M & En)]); [now apply nxprocess_find|].
  apply nxprocess_find. unfold find_nxprocess. rewrite C.
  destruct (set_config_stable deps params sum T C) as (h & Sc'). rewrite Sc' in Sc. injection Sc as <-.
  assert (Hit : hit name sum (e, n, mkProc (Some sum) deps (Some h) [])).
  { split; [cbn; right; now left|reflexivity]. }
  assert (Sc0 : in_scope f' here all e).
  { split; [apply En; now left|]. intros _ h' E _. now apply Hh. }
  apply (find_in_only name sum _ e n (mkProc (Some sum) deps (Some h) [])).
  - apply iter_in; [exact W'|]. split; [exact Sc0|]. apply M. now left.
  - exact Hit.
  - intros [[e' n'] p'] I Hx. apply (iter_in _ _ _ _ _ _ W') in I as [[I1 I2] I3].
    apply M in I3 as [(-> & -> & _)|I3]; [reflexivity|]. exfalso.
    apply (NH (e', n', p')); [|exact Hx]. apply iter_in; [exact W|]. split; [|exact I3].
    apply En in I1. split.
    + destruct I1 as [->|I1]; [|exact I1].
      destruct I3 as (g' & J & K). exists g'. split; [exact J|]. destruct (g_cls g') eqn:Cg; [reflexivity| |];
        (exfalso; apply (proj2 (proj2 W e g' J)) with n' p'; [congruence|exact K]).
    + intros A h' E Hent. apply (I2 A h' E). apply En. now right.
Qed.

Lemma nxprocess_result f here name deps params all noincr f' e n : wf f -> good_name name -> stable md5 rt params ->
  nxprocess md5 rt f here name deps params all noincr = Some (f', Ok (e, n)) ->
  exists sum p, calc_checksum md5 deps params = Ok sum /\ member f' e n (Proc p) /\ entry f' e /\
    good_sum p sum /\ good_match name n /\
    (f' = f \/ (unused f e n /\ p_deps p = deps /\
       (forall e' n' p', in_scope f here all e' -> member f e' n' (Proc p') ->
          good_sum p' sum -> ~ good_match name n') /\
       forall e' n' x, member f' e' n' x <-> (e' = e /\ n' = n /\ x = Proc p) \/ member f e' n' x)).
Proof.
  intros W G T H. destruct (nxprocess_cases _ _ _ _ _ _ _ _ _ W G H) as (W' & X & K).
  destruct K as (sum & C & [[-> F]|(NH & U & Nn & Sn & Hh & NP & p & Sc & M & En)]).
  - unfold find_nxprocess in F. rewrite C in F. destruct (find_in_spec name sum (iter_processes f here all)) as (o & Eo & So).
    rewrite Eo in F. injection F as ->. destruct So as (p & l1 & l2 & El & [H1 H2] & _).
    assert (I : In (e, n, p) (iter_processes f here all)) by (rewrite El; apply in_elt).
    apply (iter_in _ _ _ _ _ _ W) in I as [[I1 _] I2]. exists sum, p. split; [exact C|]. split; [exact I2|].
    split; [exact I1|]. split; [exact H2|]. split; [exact H1|]. now left.
  - destruct (set_config_stable deps params sum T C) as (h & Sc'). rewrite Sc' in Sc. injection Sc as <-.
    exists sum, (mkProc (Some sum) deps (Some h) []). split; [exact C|]. split; [apply M; now left|].
    split; [apply En; now left|]. split; [reflexivity|]. split; [right; now left|]. right. split; [exact U|].
    split; [reflexivity|]. split; [|exact M].
    intros e' n' p' A B D F. apply (NH (e', n', p')); [apply iter_in; [exact W|]; now split|now split].
Qed.

Lemma last_nxentry_in f e : last_nxentry f = Some e -> exists g, In (e, g) f.
Proof.
  unfold last_nxentry. 
  assert (K : forall l acc, fold_left (fun acc eg => if is_entry (snd eg) then Some (fst eg) else acc) l acc = Some e ->
     acc = Some e \/ exists g, In (e, g) l).
  { induction l as [|[k g] l IH]; intros acc H; [now left|]. cbn in H. apply IH in H as [H|(g' & I)].
    - destruct (is_entry g); [|now left]. injection H as ->. right. exists g. now left.
    - right. exists g'. now right. }
  intros H. destruct (K f None H) as [F|F]; [discriminate|exact F].
Qed.
Lemma nxprocess_total f here name deps params all noincr : wf f -> good_name name ->
  (forall e, entry f e -> no_braces e) ->
  exists f' r, nxprocess md5 rt f here name deps params all noincr = Some (f', r).
Proof.
  intros W G B. unfold nxprocess.
  assert (F : exists r, find_nxprocess md5 f here name deps params all = Some r).
  { unfold find_nxprocess. destruct (calc_checksum md5 deps params) as [sum|x]; [|eexists; reflexivity].
    destruct (find_in_spec name sum (iter_processes f here all)) as (o & -> & _). eexists. reflexivity. }
  destruct F as ([[loc|]|x] & ->); try (eexists; eexists; reflexivity).
  assert (E : exists r, nxentry f here = Some r).
  { unfold nxentry. destruct (first_entry f here) as [[e g]|]; [eexists; reflexivity|].
    destruct here as [h|]; [eexists; reflexivity|]. unfold next_nxentry_name.
    assert (LE : forall l, last_nxentry f = Some l -> entry f l).
    { unfold last_nxentry. intros l.
      assert (K : forall fl acc, (forall x, In x fl -> In x f) ->
        fold_left (fun acc eg => if is_entry (snd eg) then Some (fst eg) else acc) fl acc = Some l ->
        acc = Some l \/ entry f l).
      { induction fl as [|[k g] fl IH]; intros acc In0 H; [now left|]. cbn in H.
        apply IH in H as [H|H]; [|now right|intros x I; apply In0; now right].
        destruct (is_entry g) eqn:Eg; [|now left]. injection H as <-. right. exists g.
        split; [apply In0; now left|now apply is_entry_spec]. }
      intros H. destruct (K f None (fun x i => i) H) as [Q|Q]; [discriminate|exact Q]. }
    destruct (last_nxentry f) as [l|]; [|eexists; reflexivity].
    destruct (first_free_ok (root_exists f) l ([] :: map fst f) (S (S (length f))) (B l (LE l eq_refl)) (root_finite f))
      as (m & k & s & -> & -> & _); [cbn; rewrite map_length; lia|]. eexists. reflexivity. }
  destruct E as ([[f1 e]|x] & E); rewrite E; [|eexists; eexists; reflexivity].
  destruct (nxentry_spec f here f1 e W E) as (W1 & (g & I & C) & _).
  rewrite (proj2 (lookup_in e g f1 (proj1 W1)) I).
  destruct (new_path_total g name noincr G) as ([n|x] & ->); [|eexists; eexists; reflexivity].
  destruct (set_config md5 rt deps params) as [p r]. eexists; eexists; reflexivity.
Qed.
End Md5.
