(* Lemmas on association lists and numbered names for the task properties. *)
From Coq Require Import String.
From Verif Require Import TextProofs NameProofs ProcProofs ProcHistProofs TaskSpec.
Close Scope string_scope.

Lemma remove_in {A} k (l : list (chars * A)) : keys_sorted l ->
  forall k' v', In (k', v') (remove_at k l) <-> k' <> k /\ In (k', v') l.
Proof.
  induction l as [|[k1 v1] l IH]; intros S k' v'; [cbn; tauto|]. apply sorted_cons in S as [S F].
  cbn [remove_at]. destruct (chars_eqb k k1) eqn:E.
  - apply chars_eqb_spec in E as <-. split.
    + intros I. split; [|now right]. intros ->. apply F in I. now rewrite ltb_irrefl in I.
    + intros [N [[= <- <-]|I]]; [congruence|exact I].
  - cbn [In]. rewrite (IH S). split.
    + intros [[= <- <-]|[N I]]; [|split; [exact N|now right]]. split; [|now left].
      intros ->. now rewrite chars_eqb_refl in E.
    + intros [N [I|I]]; [now left|right; now split].
Qed.
Lemma remove_sorted {A} k (l : list (chars * A)) : keys_sorted l -> keys_sorted (remove_at k l).
Proof.
  induction l as [|[k1 v1] l IH]; intros S; [exact S|]. pose proof S as S0. apply sorted_cons in S as [S F].
  cbn [remove_at]. destruct (chars_eqb k k1); [exact S|]. apply sorted_cons. split; [now apply IH|].
  intros k' v' I. apply remove_in in I as [_ I]; [|exact S]. now apply (F k' v').
Qed.
Lemma replace_twice {A} k (v v' : A) l : replace_at k v (replace_at k v' l) = replace_at k v l.
Proof.
  induction l as [|[k1 v1] l IH]; [reflexivity|]. cbn [replace_at].
  destruct (chars_eqb k k1) eqn:E; cbn [replace_at]; rewrite E; [reflexivity|now rewrite IH].
Qed.
Lemma lookup_replace {A} k (v v0 : A) l : lookup k l = Some v0 -> lookup k (replace_at k v l) = Some v.
Proof.
  induction l as [|[k1 v1] l IH]; [discriminate|]. cbn [lookup replace_at].
  destruct (chars_eqb k k1) eqn:E; cbn [lookup]; rewrite E; [reflexivity|exact IH].
Qed.
Lemma replace_same {A} k (v : A) l : lookup k l = Some v -> replace_at k v l = l.
Proof.
  induction l as [|[k1 v1] l IH]; [reflexivity|]. cbn [lookup replace_at].
  destruct (chars_eqb k k1) eqn:E; [now intros [= ->]|]. intros H. now rewrite IH.
Qed.
Lemma sorted_ext {A} (l l' : list (chars * A)) : keys_sorted l -> keys_sorted l' ->
  (forall x, In x l <-> In x l') -> l = l'.
Proof.
  revert l'. induction l as [|[k v] l IH]; intros [|[k' v'] l'] S S' H.
  - reflexivity.
  - exfalso. apply (H (k', v')). now left.
  - exfalso. apply (H (k, v)). now left.
  - apply sorted_cons in S as [S F]. apply sorted_cons in S' as [S' F'].
    assert (E : (k, v) = (k', v')).
    { destruct (proj1 (H (k, v)) (or_introl eq_refl)) as [E|I]; [now symmetry|].
      destruct (proj2 (H (k', v')) (or_introl eq_refl)) as [E|J]; [exact E|].
      apply F' in I. apply F in J. pose proof (ltb_trans _ _ _ I J) as B. now rewrite ltb_irrefl in B. }
    injection E as <- <-. f_equal. apply IH; [exact S|exact S'|].
    intros x. split; intros I.
    + destruct (proj1 (H x) (or_intror I)) as [<-|J]; [|exact J]. apply F in I. now rewrite ltb_irrefl in I.
    + destruct (proj2 (H x) (or_intror I)) as [<-|J]; [|exact J]. apply F' in I. now rewrite ltb_irrefl in I.
Qed.

(* ---- names with the same text around the counter ---- *)
Definition numbered (a : chars) : Prop := exists pre ds post, last_number a pre ds post.
Definition related (a b : chars) : Prop :=
  exists pre d d' post, last_number a pre d post /\ last_number b pre d' post.
Lemma related_sym a b : related a b -> related b a.
Proof. intros (p & d & d' & q & A & B). now exists p, d', d, q. Qed.
Lemma related_trans a b c : related a b -> related b c -> related a c.
Proof.
  intros (p & d & d' & q & A & B) (p' & d1 & d2 & q' & C & D).
  destruct (last_number_fun _ _ _ _ _ _ _ B C) as (-> & -> & ->). now exists p', d, d2, q'.
Qed.
Lemma related_refl a : numbered a -> related a a.
Proof. intros (p & d & q & H). now exists p, d, d, q. Qed.
Lemma same_related a s : numbered a -> (same_name a s <-> related a s).
Proof.
  intros (p & d & q & L). split.
  - intros [[N _]|[[N _]|(p' & d1 & q' & d2 & L' & N & D & ->)]].
    + exfalso. now apply (last_number_some _ _ _ _ L).
    + exfalso. now apply (last_number_some _ _ _ _ L).
    + exists p', d1, d2, q'. split; [exact L'|]. now apply (last_number_replace p' d1 q' a).
  - intros (p' & d1 & d2 & q' & L' & M). right. right. exists p', d1, q', d2.
    split; [exact L'|]. destruct M as (-> & N & D & _). now repeat split.
Qed.
Lemma related_nonempty a b : related a b -> b <> [].
Proof.
  intros (p & d & d' & q & _ & (-> & N & _)) E. apply app_eq_nil in E as [_ E]. apply app_eq_nil in E as [E _]. tauto.
Qed.
Lemma no_braces_app_inv a b : no_braces (a ++ b) <-> no_braces a /\ no_braces b.
Proof. apply Forall_app. Qed.
Lemma digits_no_braces ds : digits ds -> no_braces ds.
Proof.
  intros D. unfold digits, no_braces in *. rewrite Forall_forall in *. intros c I. apply D in I.
  split; intros ->; discriminate I.
Qed.
Lemma related_no_braces a b : related a b -> no_braces a -> no_braces b.
Proof.
  intros (p & d & d' & q & (-> & _) & (-> & _ & D & _)). rewrite !no_braces_app_inv. intros (A & _ & B).
  split; [exact A|]. split; [now apply digits_no_braces|exact B].
Qed.
Lemma related_no_newline a b : related a b -> ~ In newline a -> ~ In newline b.
Proof.
  intros H. apply same_name_newline. apply same_related; [|exact H]. destruct H as (p & d & d' & q & A & _). now exists p, d, q.
Qed.

Lemma dot_number base ds : no_digits base -> ds <> [] -> digits ds ->
  last_number (base ++ [ch 46] ++ ds) (base ++ [ch 46]) ds [].
Proof.
  intros B N D. split; [now rewrite app_nil_r, <- app_assoc|]. split; [exact N|]. split; [exact D|]. split; [constructor|].
  intros p c E. apply app_inj_tail in E as [_ <-]. reflexivity.
Qed.
Lemma nth_related base j k s u : nth_name base j s -> nth_name base k u -> related s u.
Proof.
  intros [(H & ds & -> & D & T & N & V) | (pre & ds0 & post & ds & L & -> & D & V & W & T)]
         [(H' & ds' & -> & D' & T' & N' & V') | (pre' & ds0' & post' & ds' & L' & -> & D' & V' & W' & T')].
  - exists (base ++ [ch 46]), ds, ds', []. split; now apply dot_number.
  - exfalso. now apply (last_number_some _ _ _ _ L').
  - exfalso. now apply (last_number_some _ _ _ _ L).
  - destruct (last_number_fun _ _ _ _ _ _ _ L L') as (<- & <- & <-).
    assert (P : ds0 <> []) by apply L.
    exists pre, ds, ds', post. split; apply (last_number_replace pre ds0 post base); try assumption.
    + intros ->. destruct ds0; [congruence|cbn in W; lia].
    + intros ->. destruct ds0; [congruence|cbn in W'; lia].
Qed.
Lemma nth_no_braces base k s : nth_name base k s -> no_braces base -> no_braces s.
Proof.
  intros [(H & ds & -> & D & _) | (pre & ds0 & post & ds & (-> & _) & -> & D & _)]; rewrite !no_braces_app_inv.
  - intros B. split; [exact B|]. split; [repeat constructor; discriminate|now apply digits_no_braces].
  - intros (A & _ & B). split; [exact A|]. split; [now apply digits_no_braces|exact B].
Qed.
Lemma nth_no_newline base k s : nth_name base k s -> ~ In newline base -> ~ In newline s.
Proof. intros H. apply same_name_newline. now apply (nth_same_name base k). Qed.
Lemma new_Name_0 base : no_braces base -> exists s, name_str (new_Name base) = Fmt s /\ nth_name base 0 s.
Proof.
  intros B. destruct (index_name_ok base 0 B ltac:(lia)) as [E H]. exists (index_name base 0). split; [|exact H].
  rewrite Z.add_0_r in E. unfold name_str. rewrite <- E. unfold new_Name. now destruct (naming_format base) as [[a b] c].
Qed.
Lemma prepare_name base : prepare base = name_str (new_Name base).
Proof. unfold prepare, name_str, new_Name. now destruct (naming_format base) as [[a b] c]. Qed.
Lemma reset_new base : name_reset (new_Name base) = new_Name base.
Proof. unfold name_reset, new_Name. now destruct (naming_format base) as [[a b] c]. Qed.
Lemma new_unlocked base : n_locked (new_Name base) = false.
Proof. unfold new_Name. now destruct (naming_format base) as [[a b] c]. Qed.
Lemma numbered_start s u : numbered s -> nth_name s 0 u -> u = s.
Proof.
  intros (p & d & q & L) H. apply (nth_name_0 s u H). intros N. now apply (last_number_some _ _ _ _ L).
Qed.
Lemma numbered_str s : numbered s -> no_braces s -> name_str (new_Name s) = Fmt s /\ nth_name s 0 s.
Proof.
  intros N B. destruct (new_Name_0 s B) as (u & E & H). pose proof (numbered_start s u N H) as ->. now split.
Qed.
Lemma first_free_keeps ex fuel : forall n m, first_free ex fuel n = Some (Ok m) ->
  n_fmt m = n_fmt n /\ n_org m = n_org n /\ n_locked m = n_locked n.
Proof.
  induction fuel as [|fuel IH]; intros n m H; [discriminate|]. cbn [first_free] in H.
  destruct (name_str n) as [s|x|]; try discriminate. destruct (ex s).
  - apply IH in H. unfold name_iadd in H. destruct (n_locked n) eqn:L; cbn in H; rewrite ?L in H; exact H.
  - now injection H as <-.
Qed.
