From Coq Require Import String.
From Verif Require Import Base Text TextProofs XiaModel XiaSpec XiaProofs XiaNameProofs.
From Verif Require ProcProofs.
From Verif Require Import XiaModel.
Close Scope string_scope.
Local Open Scope nat_scope.
Local Notation s := list_ascii_of_string.

(* ---- the order ---- *)
Lemma key_ltb_before a b : key_ltb a b = true <-> before_key a b.
Proof.
  destruct a as [[[r1 m1] l1] t1], b as [[[r2 m2] l2] t2]. cbn [key_ltb before_key]. unfold text_lt.
  destruct (chars_eqb r1 r2) eqn:R; cbn [negb].
  - apply chars_eqb_spec in R. subst r2. destruct (Z.eqb_spec m1 m2) as [M|M]; cbn [negb].
    + subst m2. destruct (Z.eqb_spec l1 l2) as [L|L]; cbn [negb].
      * subst l2. split.
        -- intros H. right. split; [reflexivity|]. right. split; [reflexivity|]. right. auto.
        -- intros [H | (_ & [H | (_ & [H | (_ & H)])])]; [now rewrite ProcProofs.ltb_irrefl in H|lia|lia|exact H].
      * rewrite Z.ltb_lt. split.
        -- intros H. right. split; [reflexivity|]. right. auto.
        -- intros [H | (_ & [H | (_ & [H | (H & _)])])]; [now rewrite ProcProofs.ltb_irrefl in H|lia|lia|congruence].
    + rewrite Z.ltb_lt. split.
      * intros H. right. auto.
      * intros [H | (_ & [H | (H & _)])]; [now rewrite ProcProofs.ltb_irrefl in H|lia|congruence].
  - assert (N : r1 <> r2) by (intros ->; rewrite (proj2 (chars_eqb_spec r2 r2) eq_refl) in R; discriminate).
    split; [auto|]. intros [H | (H & _)]; [exact H|congruence].
Qed.
Lemma before_irrefl a : ~ before_key a a.
Proof.
  destruct a as [[[r m] l] t]. cbn [before_key]. unfold text_lt. rewrite !ProcProofs.ltb_irrefl.
  intros [H | (_ & [H | (_ & [H | (_ & H)])])]; try discriminate; lia.
Qed.
Lemma before_trans a b c : before_key a b -> before_key b c -> before_key a c.
Proof.
  destruct a as [[[r1 m1] l1] t1], b as [[[r2 m2] l2] t2], c as [[[r3 m3] l3] t3]. cbn [before_key]. unfold text_lt.
  intros [A | (-> & A)] [B | (-> & B)].
  - left. now apply (ProcProofs.ltb_trans _ r2).
  - now left.
  - now left.
  - right. split; [reflexivity|]. destruct A as [A | (-> & A)], B as [B | (-> & B)]; try (left; lia).
    right. split; [reflexivity|]. destruct A as [A | (-> & A)], B as [B | (-> & B)]; try (left; lia).
    right. split; [reflexivity|]. now apply (ProcProofs.ltb_trans _ t2).
Qed.
Lemma before_total a b : before_key a b \/ a = b \/ before_key b a.
Proof.
  destruct a as [[[r1 m1] l1] t1], b as [[[r2 m2] l2] t2]. cbn [before_key]. unfold text_lt.
  destruct (ProcModel.chars_ltb r1 r2) eqn:R; [auto|]. apply ProcProofs.ltb_total in R.
  destruct R as [-> | R]; [|auto].
  destruct (Z.lt_trichotomy m1 m2) as [M | [-> | M]]; [left; right; auto| |right; right; right; auto].
  destruct (Z.lt_trichotomy l1 l2) as [L | [-> | L]];
    [left; right; split; [reflexivity|]; right; auto| |right; right; right; split; [reflexivity|]; right; auto].
  destruct (ProcModel.chars_ltb t1 t2) eqn:T; [left; right; split; [reflexivity|]; right; split; [reflexivity|]; right; auto|].
  apply ProcProofs.ltb_total in T.
  destruct T as [-> | T]; [auto|]. right. right. right. split; [reflexivity|]. right. split; [reflexivity|]. right. auto.
Qed.
Lemma not_after_trans a b c : not_after a b -> not_after b c -> not_after a c.
Proof.
  unfold not_after. intros A B C.
  destruct (before_total (entry_key a) (entry_key b)) as [H | [H | H]]; [|rewrite H in *; auto|auto].
  apply B. now apply (before_trans _ (entry_key a)).
Qed.

(* ---- sorting ---- *)
Lemma place_perm x l : Permutation (x :: l) (place x l).
Proof.
  induction l as [|y l IH]; [reflexivity|]. cbn [place]. destruct (key_ltb (entry_key x) (entry_key y)); [reflexivity|].
  rewrite perm_swap. now constructor.
Qed.
Lemma place_sorted x l : StronglySorted not_after l -> StronglySorted not_after (place x l).
Proof.
  induction 1 as [|y l S IH F]; cbn [place]; [constructor; constructor|].
  destruct (key_ltb (entry_key x) (entry_key y)) eqn:E.
  - apply key_ltb_before in E. assert (X : not_after x y) by (intros K; apply (before_irrefl (entry_key x)); now apply (before_trans _ (entry_key y))).
    constructor; [constructor; assumption|]. constructor; [exact X|].
    eapply Forall_impl; [|exact F]. intros z Z. now apply (not_after_trans x y z).
  - constructor; [exact IH|]. apply (Permutation_Forall (place_perm x l)). constructor; [|exact F].
    intros K. apply key_ltb_before in K. congruence.
Qed.
Lemma sort_perm l : Permutation l (sort l).
Proof.
  unfold sort. assert (G : forall acc, Permutation (l ++ acc) (fold_left (fun acc x => place x acc) l acc)).
  { induction l as [|x l IH]; intros acc; [reflexivity|]. cbn [fold_left app]. rewrite <- IH.
    rewrite <- place_perm. apply Permutation_middle. }
  rewrite <- G. now rewrite app_nil_r.
Qed.
Lemma sort_sorted l : StronglySorted not_after (sort l).
Proof.
  unfold sort. assert (G : forall acc, StronglySorted not_after acc -> StronglySorted not_after (fold_left (fun acc x => place x acc) l acc)).
  { induction l as [|x l IH]; intros acc S; [exact S|]. cbn [fold_left]. apply IH. now apply place_sorted. }
  apply G. constructor.
Qed.
Definition same_key (k : key) (e : entry) : bool := if key_dec (entry_key e) k then true else false.
Lemma place_stable k x l : StronglySorted not_after l ->
  filter (same_key k) (place x l) = filter (same_key k) l ++ filter (same_key k) [x].
Proof.
  induction 1 as [|y l S IH F]; [reflexivity|]. cbn [place].
  destruct (key_ltb (entry_key x) (entry_key y)) eqn:E.
  - change (x :: y :: l) with ([x] ++ y :: l). rewrite filter_app. cbn [filter].
    destruct (same_key k x) eqn:D0; [|cbn [app]; now rewrite app_nil_r].
    assert (D : entry_key x = k) by (unfold same_key in D0; destruct (key_dec (entry_key x) k); [assumption|discriminate]).
    apply key_ltb_before in E.
    assert (Z : filter (same_key k) (y :: l) = []).
    { assert (Q : Forall (fun z => same_key k z = false) (y :: l)).
      { constructor.
        - unfold same_key. destruct (key_dec (entry_key y) k) as [D'|D']; [|reflexivity]. exfalso.
          rewrite D, D' in E. now apply before_irrefl in E.
        - eapply Forall_impl; [|exact F]. intros z Z. unfold same_key.
          destruct (key_dec (entry_key z) k) as [D'|D']; [|reflexivity]. exfalso. apply Z. now rewrite D', <- D. }
      clear -Q. induction Q as [|z q Hz Q IH]; [reflexivity|]. cbn [filter]. now rewrite Hz. }
    cbn [filter] in Z. rewrite Z. reflexivity.
  - cbn [filter]. rewrite IH. now destruct (same_key k y).
Qed.
Lemma sort_stable k l : filter (same_key k) (sort l) = filter (same_key k) l.
Proof.
  unfold sort. assert (G : forall acc, StronglySorted not_after acc ->
    filter (same_key k) (fold_left (fun acc x => place x acc) l acc) = filter (same_key k) acc ++ filter (same_key k) l).
  { induction l as [|x l IH]; intros acc S; [cbn [fold_left filter]; now rewrite app_nil_r|].
    cbn [fold_left]. rewrite IH by (now apply place_sorted). rewrite place_stable by exact S.
    rewrite <- app_assoc, <- filter_app. reflexivity. }
  rewrite G by constructor. reflexivity.
Qed.
Lemma parse_runtime f e : parse f = Err e -> e = RuntimeError.
Proof.
  unfold parse, parse_with. destruct (first_match (patterns []) (PathModel.basename f)) as [c|]; [|congruence].
  destruct (cap g_radix c) as [r|]; [|congruence]. destruct (cap g_label c) as [b|]; [|congruence].
  destruct (cap g_map c) as [m|]; [|congruence]. destruct (parse_label b); discriminate.
Qed.
Lemma parse_all_ok files l : parse_all files = Ok l -> map snd l = files /\ Forall (fun e => parse (snd e) = Ok (fst e)) l.
Proof.
  revert l; induction files as [|f fs IH]; intros l; cbn [parse_all bind].
  - intros H. replace l with (@nil entry) by congruence. split; [reflexivity|constructor].
  - destruct (parse f) as [o|e] eqn:P; cbn [bind]; [|discriminate].
    destruct (parse_all fs) as [l'|e]; cbn [bind]; [|discriminate]. intros H.
    replace l with ((o, f) :: l') by congruence. destruct (IH l' eq_refl) as [A B].
    split; [cbn [map snd]; now rewrite A|]. constructor; [exact P|exact B].
Qed.
Lemma parse_all_err files : (exists f e, In f files /\ parse f = Err e) -> parse_all files = Err RuntimeError.
Proof.
  intros (f & e & I & E). induction files as [|g fs IH]; [destruct I|]. cbn [parse_all].
  destruct (parse g) as [o|e'] eqn:P; cbn [bind].
  - destruct I as [-> | I]; [congruence|]. now rewrite IH.
  - now rewrite (parse_runtime g e' P).
Qed.
Lemma parse_all_total files : (forall f, In f files -> exists o, parse f = Ok o) -> exists l, parse_all files = Ok l.
Proof.
  induction files as [|f fs IH]; intros H; [now exists []|]. cbn [parse_all].
  destruct (H f (or_introl eq_refl)) as (o & ->). cbn [bind].
  destruct IH as (l & ->); [intros g G; apply H; now right|]. cbn [bind]. now exists ((o, f) :: l).
Qed.
Lemma sorted_entries_spec files l : sorted_entries files = Ok l ->
  Permutation files (map snd l) /\ StronglySorted not_after l /\ Forall (fun e => parse (snd e) = Ok (fst e)) l.
Proof.
  unfold sorted_entries. destruct (parse_all files) as [l0|] eqn:P; cbn [bind]; [|discriminate].
  intros H. replace l with (sort l0) by congruence. apply parse_all_ok in P. destruct P as [<- P].
  split; [apply Permutation_map, sort_perm|]. split; [apply sort_sorted|].
  exact (Permutation_Forall (sort_perm l0) P).
Qed.

(* ---- groupby and ordered dictionaries ---- *)
Section Groups.
Context {K : Type} (eqb : K -> K -> bool) (eqb_spec : forall a b, eqb a b = true <-> a = b).
Context {A : Type} (f : A -> K).
Lemma groupby_concat l : concat (map snd (groupby eqb f l)) = l.
Proof using.
  induction l as [|x l IH]; [reflexivity|]. cbn [groupby].
  destruct (groupby eqb f l) as [|[k g] r]; [cbn in IH; now rewrite <- IH|].
  destruct (eqb (f x) k); cbn [map snd concat app] in *; now rewrite <- IH.
Qed.
Lemma groupby_key l k g : In (k, g) (groupby eqb f l) -> g <> [] /\ forall x, In x g -> f x = k.
Proof using eqb_spec.
  revert k g; induction l as [|x l IH]; intros k g; [intros []|]. cbn [groupby].
  destruct (groupby eqb f l) as [|[k' g'] r].
  - intros [H | []]. replace k with (f x) by congruence. replace g with [x] by congruence.
    split; [discriminate|]. intros y [<- | []]. reflexivity.
  - destruct (eqb (f x) k') eqn:E.
    + apply eqb_spec in E. intros [H | H].
      * replace k with (f x) by congruence. replace g with (x :: g') by congruence.
        split; [discriminate|]. intros y [<- | Y]; [reflexivity|]. rewrite E.
        now apply (IH k' g'); [left|].
      * apply IH. now right.
    + intros [H | H].
      * replace k with (f x) by congruence. replace g with [x] by congruence.
        split; [discriminate|]. intros y [<- | []]. reflexivity.
      * now apply IH.
Qed.
Lemma groupby_sub l k g : In (k, g) (groupby eqb f l) -> exists a b, l = a ++ g ++ b.
Proof using.
  intros H. rewrite <- (groupby_concat l). apply in_split in H. destruct H as (p & q & ->).
  exists (concat (map snd p)), (concat (map snd q)). rewrite map_app, concat_app. reflexivity.
Qed.
Context (lt : K -> K -> Prop) (lt_trans : forall a b c, lt a b -> lt b c -> lt a c)
        (lt_total : forall a b, ~ lt b a -> a = b \/ lt a b).
Lemma groupby_increasing l : StronglySorted (fun a b => ~ lt (f b) (f a)) l ->
  StronglySorted lt (map fst (groupby eqb f l)).
Proof using eqb_spec lt_trans lt_total.
  induction 1 as [|x l S IH F]; [constructor|]. cbn [groupby].
  pose proof (groupby_key l) as KEY. pose proof (groupby_concat l) as C.
  destruct (groupby eqb f l) as [|[k g] r]; [constructor; constructor|].
  destruct (eqb (f x) k) eqn:E.
  - apply eqb_spec in E. rewrite <- E in IH. exact IH.
  - cbn [map fst] in *. assert (L : lt (f x) k).
    { destruct (KEY k g (or_introl eq_refl)) as [Ne Kg]. destruct g as [|y g]; [congruence|].
      assert (I : In y l) by (rewrite <- C; now left).
      rewrite Forall_forall in F. specialize (F y I). rewrite (Kg y (or_introl eq_refl)) in F.
      destruct (lt_total _ _ F) as [Q | Q]; [|exact Q]. apply eqb_spec in Q. congruence. }
    constructor; [exact IH|]. constructor; [exact L|]. inversion IH as [|? ? _ F']; subst.
    eapply Forall_impl; [|exact F']. intros z Z. now apply (lt_trans _ k).
Qed.
End Groups.
Section Dicts.
Context {K V : Type} (eqb : K -> K -> bool) (eqb_spec : forall a b, eqb a b = true <-> a = b).
Lemma dset_fresh k (v : V) d : ~ In k (map fst d) -> dset eqb k v d = d ++ [(k, v)].
Proof using eqb_spec.
  induction d as [|[k' v'] d IH]; intros N; [reflexivity|]. cbn [dset].
  destruct (eqb k k') eqn:E; [apply eqb_spec in E; subst; exfalso; apply N; now left|].
  rewrite IH; [reflexivity|]. intros I. apply N. now right.
Qed.
Lemma dget_fresh k d (v : V) : ~ In k (map fst d) -> dget eqb k d v = v.
Proof using eqb_spec.
  induction d as [|[k' v'] d IH]; intros N; [reflexivity|]. cbn [dget].
  destruct (eqb k k') eqn:E; [apply eqb_spec in E; subst; exfalso; apply N; now left|].
  apply IH. intros I. apply N. now right.
Qed.
Lemma fold_dset {B} (h : V -> B -> V) (z : V) (gs : list (K * B)) : forall d,
  NoDup (map fst d ++ map fst gs) ->
  fold_left (fun d g => dset eqb (fst g) (h (dget eqb (fst g) d z) (snd g)) d) gs d =
  d ++ map (fun g => (fst g, h z (snd g))) gs.
Proof using eqb_spec.
  induction gs as [|[k b] gs IH]; intros d N; cbn [fold_left map]; [now rewrite app_nil_r|].
  cbn [map fst] in N. assert (Nk : ~ In k (map fst d)).
  { apply NoDup_remove_2 in N. intros I. apply N. apply in_or_app. now left. }
  cbn [fst snd]. rewrite dget_fresh, dset_fresh by exact Nk. rewrite IH.
  - rewrite <- app_assoc. reflexivity.
  - rewrite map_app, <- app_assoc. exact N.
Qed.
End Dicts.
Lemma sorted_nodup {K} (lt : K -> K -> Prop) (irr : forall a, ~ lt a a) l : StronglySorted lt l -> NoDup l.
Proof.
  induction 1 as [|x l S IH F]; constructor; [|exact IH]. intros I.
  rewrite Forall_forall in F. exact (irr x (F x I)).
Qed.
Lemma sorted_sub {A} (R : A -> A -> Prop) a g b : StronglySorted R (a ++ g ++ b) -> StronglySorted R g.
Proof.
  induction a as [|x a IH]; cbn [app].
  - induction g as [|x g IHg]; cbn [app]; intros S; [constructor|]. inversion S as [|? ? S' F]; subst.
    constructor; [now apply IHg|]. apply Forall_app in F. apply F.
  - intros S. inversion S. auto.
Qed.
Lemma sorted_impl {A} (R Q : A -> A -> Prop) l : (forall a b, In a l -> In b l -> R a b -> Q a b) ->
  StronglySorted R l -> StronglySorted Q l.
Proof.
  intros H S. induction S as [|x l S IH F]; [constructor|]. constructor.
  - apply IH. intros a b Ia Ib. apply H; now right.
  - rewrite Forall_forall in *. intros y Y. apply H; [now left|now right|auto].
Qed.
Lemma Zlt_total_ge a b : ~ (b < a)%Z -> a = b \/ (a < b)%Z.
Proof. lia. Qed.
Lemma text_lt_trans a b c : text_lt a b -> text_lt b c -> text_lt a c.
Proof. apply ProcProofs.ltb_trans. Qed.
Lemma text_lt_total a b : ~ text_lt b a -> a = b \/ text_lt a b.
Proof.
  unfold text_lt. intros N. destruct (ProcModel.chars_ltb b a) eqn:E; [congruence|].
  apply ProcProofs.ltb_total in E. destruct E as [-> | E]; auto.
Qed.
Lemma text_lt_irrefl a : ~ text_lt a a.
Proof. unfold text_lt. rewrite ProcProofs.ltb_irrefl. discriminate. Qed.

(* ---- the levels ---- *)
Definition radix_of (e : entry) := x_radix (fst e).
Definition map_of (e : entry) := x_map (fst e).
Definition line_of (e : entry) := x_line (fst e).
Lemma not_after_radix a b : not_after a b -> ~ text_lt (radix_of b) (radix_of a).
Proof. unfold not_after, entry_key, sortkey, radix_of. cbn [before_key]. tauto. Qed.
Lemma not_after_map a b : radix_of a = radix_of b -> not_after a b -> ~ (map_of b < map_of a)%Z.
Proof. unfold not_after, entry_key, sortkey, radix_of, map_of. cbn [before_key]. intros ->. tauto. Qed.
Lemma not_after_line a b : radix_of a = radix_of b -> map_of a = map_of b -> not_after a b -> ~ (line_of b < line_of a)%Z.
Proof. unfold not_after, entry_key, sortkey, radix_of, map_of, line_of. cbn [before_key]. intros -> ->. tauto. Qed.
Definition same {B} (g : entry -> B) (v : list entry) : Prop := forall a b, In a v -> In b v -> g a = g b.

Lemma lines_level v : StronglySorted not_after v -> same radix_of v -> same map_of v ->
  StronglySorted Z.lt (map fst (groupby Z.eqb line_of v)).
Proof.
  intros S R M. apply groupby_increasing; [apply Z.eqb_eq|intros a b c; lia|apply Zlt_total_ge|].
  eapply sorted_impl; [|exact S]. intros a b Ia Ib. apply not_after_line; [now apply R|now apply M].
Qed.
Lemma maps_level v : StronglySorted not_after v -> same radix_of v ->
  StronglySorted Z.lt (map fst (groupby Z.eqb map_of v)).
Proof.
  intros S R. apply groupby_increasing; [apply Z.eqb_eq|intros a b c; lia|apply Zlt_total_ge|].
  eapply sorted_impl; [|exact S]. intros a b Ia Ib. apply not_after_map. now apply R.
Qed.
Lemma radix_level v : StronglySorted not_after v -> StronglySorted text_lt (map fst (groupby chars_eqb radix_of v)).
Proof.
  intros S. apply groupby_increasing; [apply chars_eqb_spec|exact text_lt_trans|exact text_lt_total|].
  eapply sorted_impl; [|exact S]. intros a b _ _. apply not_after_radix.
Qed.
Lemma lines_into_eq v : StronglySorted not_after v -> same radix_of v -> same map_of v ->
  lines_into [] v = map (fun g => (fst g, files_of (snd g))) (groupby Z.eqb line_of v).
Proof.
  intros S R M. unfold lines_into.
  pose proof (fold_dset Z.eqb Z.eqb_eq (fun _ => files_of) [] (groupby Z.eqb line_of v) []) as F.
  cbn [app map] in F. apply F. apply (sorted_nodup Z.lt); [intros a; lia|]. now apply lines_level.
Qed.
Lemma maps_into_eq v : StronglySorted not_after v -> same radix_of v ->
  maps_into [] v = map (fun g => (fst g, lines_into [] (snd g))) (groupby Z.eqb map_of v).
Proof.
  intros S R. unfold maps_into.
  pose proof (fold_dset Z.eqb Z.eqb_eq lines_into [] (groupby Z.eqb map_of v) []) as F.
  cbn [app map] in F. apply F. apply (sorted_nodup Z.lt); [intros a; lia|]. now apply maps_level.
Qed.
Lemma radix_into_eq v : StronglySorted not_after v ->
  radix_into [] v = map (fun g => (fst g, maps_into [] (snd g))) (groupby chars_eqb radix_of v).
Proof.
  intros S. unfold radix_into.
  pose proof (fold_dset chars_eqb chars_eqb_spec maps_into [] (groupby chars_eqb radix_of v) []) as F.
  cbn [app map] in F. apply F. apply (sorted_nodup text_lt text_lt_irrefl). now apply radix_level.
Qed.
Lemma group_same {K} (eqb : K -> K -> bool) (sp : forall a b, eqb a b = true <-> a = b) (h : entry -> K) v k g :
  In (k, g) (groupby eqb h v) -> StronglySorted not_after v ->
  StronglySorted not_after g /\ same h g /\ g <> [] /\ (forall x, In x g -> h x = k) /\ (forall x, In x g -> In x v).
Proof.
  intros I S. destruct (groupby_key eqb sp h v k g I) as [Ne Kg]. destruct (groupby_sub eqb h v k g I) as (a & b & E).
  split; [subst v; now apply sorted_sub in S|]. split; [intros x y X Y; now rewrite (Kg x X), (Kg y Y)|].
  split; [exact Ne|]. split; [exact Kg|]. intros x X. subst v. apply in_or_app. right. apply in_or_app. now left.
Qed.
Lemma same_sub {B} (h : entry -> B) v g : same h v -> (forall x, In x g -> In x v) -> same h g.
Proof. intros H S a b A C. apply H; auto. Qed.
Lemma flat_groups {K} (eqb : K -> K -> bool) (h : entry -> K) {V} (G : list entry -> V) (fl : V -> list chars) v :
  (forall k g, In (k, g) (groupby eqb h v) -> fl (G g) = files_of g) ->
  concat (map (fun x => fl (snd x)) (map (fun g => (fst g, G (snd g))) (groupby eqb h v))) = files_of v.
Proof.
  intros H. rewrite <- (groupby_concat eqb h v) at 2. induction (groupby eqb h v) as [|[k g] r IH]; [reflexivity|].
  cbn [map concat fst snd]. unfold files_of. rewrite map_app. rewrite (H k g (or_introl eq_refl)). f_equal.
  apply IH. intros k' g' I. apply (H k' g'). now right.
Qed.
Lemma flat_lines v : StronglySorted not_after v -> same radix_of v -> same map_of v -> flat1 (lines_into [] v) = files_of v.
Proof.
  intros S R M. rewrite lines_into_eq by assumption. unfold flat1.
  apply (flat_groups Z.eqb line_of files_of (fun x => x)). reflexivity.
Qed.
Lemma flat_maps v : StronglySorted not_after v -> same radix_of v -> flat2 (maps_into [] v) = files_of v.
Proof.
  intros S R. rewrite maps_into_eq by assumption. unfold flat2.
  apply (flat_groups Z.eqb map_of (lines_into []) flat1). intros k g I.
  destruct (group_same Z.eqb Z.eqb_eq map_of v k g I S) as (Sg & Mg & _ & _ & Sub).
  apply flat_lines; [exact Sg|now apply (same_sub radix_of v)|exact Mg].
Qed.
Lemma flat_radix v : StronglySorted not_after v -> flat3 (radix_into [] v) = files_of v.
Proof.
  intros S. rewrite radix_into_eq by assumption. unfold flat3.
  apply (flat_groups chars_eqb radix_of (maps_into []) flat2). intros k g I.
  destruct (group_same chars_eqb chars_eqb_spec radix_of v k g I S) as (Sg & Rg & _ & _ & _).
  now apply flat_maps.
Qed.
