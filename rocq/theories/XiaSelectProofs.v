From Coq Require Import String.
From Verif Require Import Base Text TextProofs XiaModel XiaSpec XiaProofs XiaNameProofs XiaGroupProofs XiaFacts.
From Verif Require Import XiaModel.
Close Scope string_scope.
Local Open Scope nat_scope.
Local Notation s := list_ascii_of_string.

(* ---- filters ---- *)
Lemma filter_sel valid keep files : (forall o, valid o = true <-> keep o) -> (forall f, In f files -> parses f) ->
  exists r, filter_files valid files = Ok r /\ selection keep files r.
Proof.
  intros V. induction files as [|f fs IH]; intros H; [exists []; split; [reflexivity|constructor]|].
  destruct (H f (or_introl eq_refl)) as (o & P). destruct IH as (r & E & S); [intros g G; apply H; now right|].
  exists (if valid o then f :: r else r). cbn [filter_files]. rewrite P, E. cbn [bind]. split; [reflexivity|].
  destruct (valid o) eqn:B.
  - apply (sel_keep keep f o); [exact P|now apply V|exact S].
  - apply (sel_drop keep f o); [exact P| |exact S]. intros K. apply V in K. congruence.
Qed.
Lemma filter_err valid files f e : In f files -> parse f = Err e -> filter_files valid files = Err RuntimeError.
Proof.
  intros I E. induction files as [|g fs IH]; [destruct I|]. cbn [filter_files].
  destruct (parse g) as [o|e'] eqn:P; cbn [bind].
  - destruct I as [-> | I]; [congruence|]. now rewrite IH.
  - now rewrite (parse_runtime g e' P).
Qed.
Lemma selection_unique keep files r r' : selection keep files r -> selection keep files r' -> r = r'.
Proof.
  intros H. revert r'. induction H as [|f o fs r P K S IH|f o fs r P K S IH]; intros r' H'; inversion H'; subst.
  - reflexivity.
  - f_equal. now apply IH.
  - exfalso. replace o0 with o in * by congruence. auto.
  - exfalso. replace o0 with o in * by congruence. auto.
  - now apply IH.
Qed.

(* ---- identifiers ---- *)
Lemma all_digits_spec t : all_digits t = true <-> t <> [] /\ forallb digit t = true.
Proof.
  unfold all_digits. destruct t as [|c t]; split; intros H; [discriminate|destruct H; congruence| |now destruct H].
  split; [discriminate|exact H].
Qed.
Lemma starts_some p t r : starts p t = Some r -> t = p ++ r.
Proof.
  revert t; induction p as [|c p IH]; intros t; cbn [starts app]; [congruence|].
  destruct t as [|d t]; [discriminate|]. destruct (ascii_eqb c d) eqn:E; [|discriminate].
  apply ascii_eqb_spec in E. subst d. intros H. f_equal. now apply IH.
Qed.
Lemma xia_digits t : forallb digit (s "xia" ++ t) = false.
Proof. reflexivity. Qed.
Lemma not_all_digits t : t <> [] -> all_digits t = false -> existsb (fun c => negb (digit c)) t = true.
Proof.
  intros Ne H. unfold all_digits in H. destruct t as [|c t]; [congruence|]. revert H. generalize (c :: t). clear.
  intros l. induction l as [|c l IH]; cbn [forallb existsb]; [discriminate|].
  destruct (digit c); cbn [andb negb orb]; auto.
Qed.
Lemma label_denotes i : exists d, denotes i d /\ to_label i = s "xia" ++ d.
Proof.
  destruct i as [n|t]; [exists (format_int 2 n); split; [constructor|reflexivity]|].
  cbn [to_label]. unfold xia_. destruct (all_digits t) eqn:D.
  - apply all_digits_spec in D. exists (format_int 2 (int_of t)). split; [now constructor|reflexivity].
  - destruct (starts (s "xia") t) as [r|] eqn:X.
    + apply starts_some in X. subst t. exists r. split; [constructor|reflexivity].
    + exists t. split; [|reflexivity]. destruct t as [|c t]; [apply den_empty|].
      apply den_other; [apply not_all_digits; [discriminate|exact D]|].
      intros u E. rewrite E, starts_app in X. discriminate.
Qed.
Lemma exists_not_forall t : existsb (fun c => negb (digit c)) t = true -> forallb digit t = false.
Proof.
  induction t as [|c t IH]; cbn [existsb forallb]; [discriminate|]. destruct (digit c); cbn [negb orb andb]; auto.
Qed.
Lemma app_xia_inj a b : s "xia" ++ a = s "xia" ++ b -> a = b.
Proof. apply app_inv_head. Qed.
Lemma denotes_unique i a b : denotes i a -> denotes i b -> a = b.
Proof.
  intros H H'. destruct H as [n|t Ne D|t|t X N|]; inversion H'; clear H'; subst;
    try reflexivity; try congruence; try discriminate.
  - match goal with X : existsb _ _ = true |- _ => apply exists_not_forall in X; congruence end.
  - exfalso. match goal with M : forall u, _ |- _ => now apply (M t) end.
  - apply exists_not_forall in X. congruence.
  - exfalso. now apply (N b).
Qed.
Lemma labelled_spec i o : labelled i o <-> x_label o = to_label i.
Proof.
  destruct (label_denotes i) as (d & D & E). rewrite E. split.
  - intros (d' & D' & L). now rewrite (denotes_unique i d d' D D').
  - intros L. exists d. auto.
Qed.
Lemma among_spec x l : among x l = true <-> In x l.
Proof.
  unfold among. rewrite existsb_exists. split.
  - intros (y & I & E). apply chars_eqb_spec in E. now subst.
  - intros I. exists x. split; [exact I|]. now apply chars_eqb_spec.
Qed.
Lemma among_labels o l : among (x_label o) (map to_label l) = true <-> exists i, In i l /\ labelled i o.
Proof.
  rewrite among_spec, in_map_iff. split.
  - intros (i & E & I). exists i. split; [exact I|]. now apply labelled_spec.
  - intros (i & I & L). exists i. split; [|exact I]. symmetry. now apply labelled_spec.
Qed.
(* the three ways to combine the two lists *)
Lemma chosen_bool (test : xname -> list ident -> bool) (holds : ident -> xname -> Prop) exclude include o :
  (forall l, test o l = true <-> exists i, In i l /\ holds i o) -> (exclude <> [] \/ include <> []) ->
  (if nothing exclude then test o include
   else if nothing include then negb (test o exclude)
   else negb (test o exclude) && test o include) = true <-> chosen holds exclude include o.
Proof.
  intros T N. unfold chosen.
  assert (E : negb (test o exclude) = true <-> forall i, In i exclude -> ~ holds i o).
  { rewrite Bool.negb_true_iff. split.
    - intros B i I H. assert (test o exclude = true) by (apply T; eauto). congruence.
    - intros H. destruct (test o exclude) eqn:B; [|reflexivity]. apply T in B. destruct B as (i & I & K). exfalso. now apply (H i). }
  destruct exclude as [|x ex]; [destruct include as [|y inc]; [destruct N; congruence|]|destruct include as [|y inc]]; cbn [nothing].
  - rewrite T. split; [intros H; split; [intros i []|now right]|intros [_ [H | H]]; [discriminate|exact H]].
  - rewrite E. split; [auto|now intros [H _]].
  - rewrite Bool.andb_true_iff, E, T. split; [intros [A B]; auto|intros [A [B | B]]; [discriminate|auto]].
Qed.
Lemma nothing_map {A B} (f : A -> B) l : nothing (map f l) = nothing l.
Proof. now destruct l. Qed.
Lemma nothing_both (a b : list ident) : (a <> [] \/ b <> []) -> nothing a && nothing b = false.
Proof. destruct a, b; cbn; intros [H | H]; congruence. Qed.
Lemma files_fact files exclude include : (exclude <> [] \/ include <> []) -> (forall f, In f files -> parses f) ->
  exists r, select_files files exclude include = Ok r /\ selection (chosen labelled exclude include) files r.
Proof.
  intros N H. unfold select_files. destruct files as [|f fs].
  - exists []. split; [reflexivity|constructor].
  - cbn [nothing]. rewrite !nothing_map, nothing_both by exact N.
    apply filter_sel; [|exact H]. intros o.
    apply (chosen_bool (fun o l => among (x_label o) (map to_label l))); [|exact N].
    intros l. apply among_labels.
Qed.
Lemma files_err files exclude include f e : (exclude <> [] \/ include <> []) -> In f files -> parse f = Err e ->
  select_files files exclude include = Err RuntimeError.
Proof.
  intros N I E. unfold select_files. destruct files as [|f0 fs]; [destruct I|].
  cbn [nothing]. rewrite !nothing_map, nothing_both by exact N. now apply (filter_err _ _ f e).
Qed.
Lemma files_all files : select_files files [] [] = Ok files.
Proof. unfold select_files. now destruct files. Qed.

(* ---- the same detector, written differently ---- *)
Lemma writes_denotes i n : writes i n -> denotes i (format_int 2 n).
Proof. intros [m|t Ne D]; [constructor|now constructor]. Qed.
Lemma padded_writes n d : (0 <= n)%Z -> d = format_int 2 n -> int_of d = n /\ forallb digit d = true /\ d <> [].
Proof.
  intros H ->. unfold format_int. replace (n <? 0)%Z with false by (symmetry; apply Z.ltb_ge; lia).
  split; [rewrite int_of_zpad; now apply int_of_dec|]. split.
  - apply forallb_digits. apply zpad_digits. now apply dec_digits.
  - intros E. apply (f_equal (@length ascii)) in E. rewrite zpad_length in E. cbn [length] in E. lia.
Qed.
Lemma same_notation n i : (0 <= n)%Z -> (writes i n \/ i = IStr (s "xia" ++ format_int 2 n)) ->
  forall o, labelled i o <-> x_label o = s "xia" ++ format_int 2 n.
Proof.
  intros H [W | ->] o.
  - apply writes_denotes in W. split.
    + intros (d & D & E). now rewrite (denotes_unique i _ _ W D).
    + intros E. exists (format_int 2 n). auto.
  - split; [intros (d & D & E)|intros E; exists (format_int 2 n); split; [constructor|exact E]].
    rewrite (denotes_unique _ _ _ (den_full (format_int 2 n)) D). exact E.
Qed.

(* ---- counters ---- *)
Lemma ends_refl t : ends_with t t = true.
Proof. destruct t; cbn [ends_with]; now rewrite (proj2 (chars_eqb_spec _ _) eq_refl). Qed.
Lemma ends_spec p t : ends_with p t = true <-> exists a, t = a ++ p.
Proof.
  induction t as [|c t IH]; cbn [ends_with].
  - rewrite Bool.orb_false_r, chars_eqb_spec. split.
    + intros ->. now exists [].
    + intros (a & E). symmetry in E. now apply app_eq_nil in E.
  - rewrite Bool.orb_true_iff, chars_eqb_spec, IH. split.
    + intros [-> | (a & ->)]; [now exists []|now exists (c :: a)].
    + intros ([|x a] & E); [now left|]. right. exists a. cbn in E. congruence.
Qed.
Lemma two_digit_inj a b : two_digits a -> two_digits b -> int_of a = int_of b -> a = b.
Proof.
  intros [La Da] [Lb Db] E.
  destruct a as [|a1 [|a2 [|]]], b as [|b1 [|b2 [|]]]; try discriminate.
  cbn [forallb andb] in Da, Db. rewrite !Bool.andb_true_iff in Da, Db.
  destruct Da as (A1 & A2 & _), Db as (B1 & B2 & _). unfold int_of in E. cbn [fold_left] in E.
  unfold digit, digit_val in *. apply Bool.andb_true_iff in A1, A2, B1, B2. rewrite !Z.leb_le in *.
  assert (N : forall x y, Z.of_nat (nat_of_ascii x) = Z.of_nat (nat_of_ascii y) -> x = y).
  { intros x y Q. rewrite <- (ascii_nat_embedding x), <- (ascii_nat_embedding y). f_equal. lia. }
  f_equal; [|f_equal]; apply N; lia.
Qed.
Lemma padded_two n : (0 <= n < 100)%Z -> two_digits (format_int 2 n).
Proof.
  intros H. destruct (padded_writes n _ (proj1 H) eq_refl) as (E & D & _). split; [|exact D].
  unfold format_int. replace (n <? 0)%Z with false by (symmetry; apply Z.ltb_ge; lia). rewrite zpad_length.
  pose proof (dec_length_le n 99 ltac:(lia)) as L. change (length (dec 99)) with 2 in L. lia.
Qed.
Lemma suffix_writes i n : writes_xia i n -> to_suffix i = format_int 2 n.
Proof.
  assert (Q : forall t, t <> [] -> forallb digit t = true -> to_suffix (IStr t) = format_int 2 (int_of t) /\
                        to_suffix (IStr (s "xia" ++ t)) = format_int 2 (int_of t)).
  { intros t Ne D. assert (A : all_digits t = true) by (now apply all_digits_spec).
    assert (X : starts (s "xia") t = None).
    { destruct (starts (s "xia") t) as [r|] eqn:E; [|reflexivity]. apply starts_some in E. subst t. discriminate. }
    cbn [to_suffix]. rewrite X, starts_app. destruct t as [|c t]; [congruence|].
    assert (C : ascii_eqb c (ch 83) = false).
    { destruct (ascii_eqb c (ch 83)) eqn:E; [|reflexivity]. apply ascii_eqb_spec in E. subst c. discriminate. }
    rewrite C, A. auto. }
  intros [j m [k | t Ne D] | t Ne D]; [reflexivity|now apply Q|now apply Q].
Qed.
Lemma writes_xia_unique i a b : writes_xia i a -> writes_xia i b -> a = b.
Proof.
  intros [j m [k | t Ne D] | t Ne D] H'.
  - inversion H' as [? ? W|]; subst. now inversion W.
  - inversion H' as [? ? W|t' Ne' D' E]; subst; [now inversion W|]. discriminate D.
  - inversion H' as [? ? W|t' Ne' D' E]; subst; [|congruence].
    inversion W as [|t' Ne' D']; subst. discriminate D'.
Qed.
Lemma within_spec (o : xname) l : two_digits (x_det o) ->
  (forall i, In i l -> exists n, (0 <= n < 100)%Z /\ writes_xia i n) ->
  existsb (fun sfx => ends_with sfx (x_det o)) (map to_suffix l) = true <-> exists i, In i l /\ numbered_as i o.
Proof.
  intros T W. rewrite existsb_exists. split.
  - intros (p & I & E). apply in_map_iff in I. destruct I as (i & <- & I). destruct (W i I) as (n & Hn & Wn).
    exists i. split; [exact I|]. exists n. split; [exact Wn|]. apply ends_spec in E. destruct E as (a & E).
    rewrite (suffix_writes i n Wn) in E. destruct (padded_two n Hn) as [L _]. destruct T as [L' _].
    assert (a = []) by (apply (f_equal (@length ascii)) in E; rewrite app_length in E; destruct a; [reflexivity|cbn in E; lia]).
    subst a. rewrite E. apply (padded_writes n _ (proj1 Hn) eq_refl).
  - intros (i & I & n & Wn & E). exists (to_suffix i). split; [now apply in_map|].
    destruct (W i I) as (n' & Hn & Wn'). rewrite (writes_xia_unique i n n' Wn Wn') in *.
    rewrite (suffix_writes i n' Wn'). replace (format_int 2 n') with (x_det o); [apply ends_refl|].
    apply two_digit_inj; [exact T|now apply padded_two|]. rewrite E. symmetry. apply (padded_writes n' _ (proj1 Hn) eq_refl).
Qed.
Lemma filter_sel_in valid keep files : (forall f, In f files -> exists o, parse f = Ok o /\ (valid o = true <-> keep o)) ->
  exists r, filter_files valid files = Ok r /\ selection keep files r.
Proof.
  induction files as [|f fs IH]; intros H; [exists []; split; [reflexivity|constructor]|].
  destruct (H f (or_introl eq_refl)) as (o & P & V). destruct IH as (r & E & S); [intros g G; apply H; now right|].
  exists (if valid o then f :: r else r). cbn [filter_files]. rewrite P, E. cbn [bind]. split; [reflexivity|].
  destruct (valid o) eqn:B.
  - apply (sel_keep keep f o); [exact P|now apply V|exact S].
  - apply (sel_drop keep f o); [exact P| |exact S]. intros K. apply V in K. congruence.
Qed.
Lemma counters_fact files exclude include : (exclude <> [] \/ include <> []) ->
  (forall i, In i (exclude ++ include) -> exists n, (0 <= n < 100)%Z /\ writes_xia i n) ->
  (forall f, In f files -> exists o, parse f = Ok o /\ (x_det o = [] \/ two_digits (x_det o))) ->
  exists r, select_counters files exclude include = Ok r /\
    selection (fun o => x_det o = [] \/ chosen numbered_as exclude include o) files r.
Proof.
  intros N W H. unfold select_counters. destruct files as [|f fs].
  - exists []. split; [reflexivity|constructor].
  - cbn [nothing]. rewrite !nothing_map, nothing_both by exact N.
    apply filter_sel_in. intros g G. destruct (H g G) as (o & P & T). exists o. split; [exact P|].
    destruct T as [E | T].
    + rewrite E. cbn [nothing]. rewrite Bool.orb_true_r. split; auto.
    + replace (nothing (x_det o)) with false by (destruct T as [L _]; destruct (x_det o); [discriminate|reflexivity]).
      rewrite Bool.orb_false_r.
      assert (Q : forall l, (forall i, In i l -> In i (exclude ++ include)) ->
        existsb (fun sfx => ends_with sfx (x_det o)) (map to_suffix l) = true <-> exists i, In i l /\ numbered_as i o).
      { intros l Sub. apply within_spec; [exact T|]. intros i I. apply W. auto. }
      assert (Qe := Q exclude ltac:(intros i I; apply in_or_app; now left)).
      assert (Qi := Q include ltac:(intros i I; apply in_or_app; now right)). clear Q.
      assert (Z : x_det o = [] \/ chosen numbered_as exclude include o <-> chosen numbered_as exclude include o).
      { split; [|auto]. intros [E | C]; [|exact C]. destruct T as [L _]. rewrite E in L. discriminate. }
      rewrite Z. set (te := existsb _ (map to_suffix exclude)) in *. set (ti := existsb _ (map to_suffix include)) in *.
      clearbody te ti. unfold chosen.
      assert (E : negb te = true <-> forall i, In i exclude -> ~ numbered_as i o).
      { rewrite Bool.negb_true_iff. split.
        - intros B i I K. assert (te = true) by (apply Qe; eauto). congruence.
        - intros K. destruct te; [|reflexivity]. destruct Qe as [Qe _]. destruct (Qe eq_refl) as (i & I & M). exfalso. now apply (K i). }
      destruct exclude as [|x ex]; [destruct include as [|y inc]; [destruct N; congruence|]|destruct include as [|y inc]]; cbn [nothing].
      * rewrite Qi. split; [intros K; split; [intros i []|now right]|intros [_ [K | K]]; [discriminate|exact K]].
      * rewrite E. split; [auto|now intros [K _]].
      * rewrite Bool.andb_true_iff, E, Qi. split; [intros [A B]; auto|intros [A [B | B]]; [discriminate|auto]].
Qed.
Lemma counters_all files : select_counters files [] [] = Ok files.
Proof. unfold select_counters. now destruct files. Qed.
Lemma counters_err files exclude include f e : (exclude <> [] \/ include <> []) -> In f files -> parse f = Err e ->
  select_counters files exclude include = Err RuntimeError.
Proof.
  intros N I E. unfold select_counters. destruct files as [|f0 fs]; [destruct I|].
  cbn [nothing]. rewrite !nothing_map, nothing_both by exact N. now apply (filter_err _ _ f e).
Qed.
Lemma number_fact i : (forall n, writes_xia i n -> to_number i = Some n) /\
  ((forall n, ~ writes_xia i n) -> to_number i = None).
Proof.
  assert (X0 : forall t, forallb digit t = true -> starts (s "xia") t = None).
  { intros t D. destruct (starts (s "xia") t) as [r|] eqn:E; [|reflexivity]. apply starts_some in E. subst t. discriminate. }
  split.
  - intros n [j m [k | t Ne D] | t Ne D]; [reflexivity| |]; cbn [to_number].
    + rewrite (X0 t D). now rewrite (proj2 (all_digits_spec t) (conj Ne D)).
    + rewrite starts_app. now rewrite (proj2 (all_digits_spec t) (conj Ne D)).
  - intros H. destruct i as [n|t]; [exfalso; apply (H n); constructor; constructor|]. cbn [to_number].
    destruct (starts (s "xia") t) as [r|] eqn:X.
    + apply starts_some in X. subst t. destruct (all_digits r) eqn:D; [|reflexivity]. apply all_digits_spec in D.
      exfalso. apply (H (int_of r)). now constructor.
    + destruct (all_digits t) eqn:D; [|reflexivity]. apply all_digits_spec in D.
      exfalso. apply (H (int_of t)). constructor. now constructor.
Qed.

(* ---- groups of detectors ---- *)
Section Dicts.
Context {V : Type}.
Implicit Types d : list (chars * V).
Lemma dget_same k (v z : V) d : dget chars_eqb k (dset chars_eqb k v d) z = v.
Proof.
  induction d as [|[k' v'] d IH]; cbn [dset dget]; [now rewrite (proj2 (chars_eqb_spec k k) eq_refl)|].
  destruct (chars_eqb k k') eqn:E; cbn [dget]; rewrite E; [reflexivity|exact IH].
Qed.
Lemma dget_other k k' (v z : V) d : k <> k' -> dget chars_eqb k' (dset chars_eqb k v d) z = dget chars_eqb k' d z.
Proof.
  intros N. assert (F : chars_eqb k' k = false).
  { destruct (chars_eqb k' k) eqn:E; [|reflexivity]. apply chars_eqb_spec in E. congruence. }
  induction d as [|[a b] d IH]; cbn [dset dget]; [now rewrite F|].
  destruct (chars_eqb k a) eqn:E; cbn [dget].
  - apply chars_eqb_spec in E. subst a. now rewrite F.
  - now rewrite IH.
Qed.
Lemma dset_in k (v : V) d k' v' : In (k', v') (dset chars_eqb k v d) -> (k' = k /\ v' = v) \/ In (k', v') d.
Proof.
  induction d as [|[a b] d IH]; cbn [dset].
  - intros [E | []]. left. split; congruence.
  - destruct (chars_eqb k a) eqn:E.
    + apply chars_eqb_spec in E. subst a. intros [Q | Q]; [left; split; congruence|right; now right].
    + intros [Q | Q]; [right; now left|]. destruct (IH Q) as [R | R]; [now left|right; now right].
Qed.
Lemma dget_in k d (z : V) : dget chars_eqb k d z = z \/ In (k, dget chars_eqb k d z) d.
Proof.
  induction d as [|[a b] d IH]; cbn [dget]; [now left|]. destruct (chars_eqb k a) eqn:E.
  - apply chars_eqb_spec in E. subst a. right. now left.
  - destruct IH as [IH | IH]; [now left|right; now right].
Qed.
Lemma dset_keys k (v : V) d : In k (map fst d) -> map fst (dset chars_eqb k v d) = map fst d.
Proof.
  induction d as [|[a b] d IH]; [intros []|]. cbn [dset map fst]. intros I.
  destruct (chars_eqb k a) eqn:E; cbn [map fst]; [reflexivity|]. f_equal. apply IH.
  destruct I as [<- | I]; [|exact I]. rewrite (proj2 (chars_eqb_spec a a) eq_refl) in E. discriminate.
Qed.
Lemma dset_nodup k (v : V) d : NoDup (map fst d) -> NoDup (map fst (dset chars_eqb k v d)).
Proof.
  intros N. destruct (in_dec (list_eq_dec ascii_dec) k (map fst d)) as [I | I].
  - now rewrite dset_keys.
  - rewrite (dset_fresh chars_eqb chars_eqb_spec) by exact I. rewrite map_app. cbn [map fst].
    apply (Permutation_NoDup (Permutation_cons_append (map fst d) k)). now constructor.
Qed.
Lemma dset_flat (fl : V -> list chars) (z : V) (Z : fl z = []) k (v : V) d :
  Permutation (concat (map (fun x => fl (snd x)) (dset chars_eqb k v d)) ++ fl (dget chars_eqb k d z))
              (concat (map (fun x => fl (snd x)) d) ++ fl v).
Proof.
  induction d as [|[a b] d IH]; cbn [dset dget].
  - rewrite Z. cbn [map concat snd app]. now rewrite !app_nil_r.
  - destruct (chars_eqb k a) eqn:E; cbn [map concat snd].
    + rewrite <- !app_assoc. rewrite (Permutation_app_comm (fl v)). rewrite <- app_assoc.
      rewrite (Permutation_app_comm (fl b) (_ ++ _)). rewrite <- app_assoc.
      apply Permutation_app_head. apply Permutation_app_comm.
    + rewrite <- !app_assoc. apply Permutation_app_head. exact IH.
Qed.
End Dicts.
Definition det_of (e : entry) := x_det (fst e).
Definition base_of (e : entry) := x_base (fst e).
Lemma groupby_nodup {A} (f : A -> chars) v : NoDup (map f v) -> groupby chars_eqb f v = map (fun x => (f x, [x])) v.
Proof.
  induction v as [|x v IH]; [reflexivity|]. cbn [map groupby]. intros N. inversion N as [|? ? Nx Nv]; subst.
  rewrite (IH Nv). destruct v as [|y v]; [reflexivity|]. cbn [map].
  destruct (chars_eqb (f x) (f y)) eqn:E; [|reflexivity]. apply chars_eqb_spec in E. exfalso. apply Nx. rewrite E. now left.
Qed.
Lemma flat1_alt {K} (d : list (K * list chars)) : flat1 d = concat (map (fun x => (fun l => l) (snd x)) d).
Proof. reflexivity. Qed.
Lemma bases_ok v : forall d, NoDup (map base_of v) -> (forall e, In e v -> dget chars_eqb (base_of e) d [] = []) ->
  Permutation (flat1 (bases_into d v)) (flat1 d ++ files_of v) /\
  forall b, dget chars_eqb b (bases_into d v) [] <> [] -> dget chars_eqb b d [] <> [] \/ In b (map base_of v).
Proof.
  intros d N F. unfold bases_into. change (fun e : xname * chars => x_base (fst e)) with base_of.
  rewrite groupby_nodup by exact N. rewrite <- fold_left_map. cbn [fst snd].
  revert d F. induction v as [|e v IH]; intros d F; cbn [fold_left].
  - cbn [files_of map]. rewrite app_nil_r. split; [reflexivity|auto].
  - cbn [map] in N. inversion N as [|? ? Nx Nv]; subst.
    destruct (IH Nv (dset chars_eqb (base_of e) (files_of [e]) d)) as [P Q].
    { intros e' I. rewrite dget_other; [apply F; now right|]. intros E. apply Nx. rewrite E. now apply in_map. }
    split.
    + rewrite P. pose proof (dset_flat (fun l => l) [] eq_refl (base_of e) (files_of [e]) d) as W.
      rewrite (F e (or_introl eq_refl)), app_nil_r in W. rewrite <- !flat1_alt in W. rewrite W, <- app_assoc. reflexivity.
    + intros b B. destruct (Q b B) as [C | C]; [|right; now right].
      destruct (list_eq_dec ascii_dec (base_of e) b) as [<- | D]; [right; now left|].
      rewrite dget_other in C by exact D. now left.
Qed.
Lemma NoDup_app_remove_r {A} (a b : list A) : NoDup (a ++ b) -> NoDup a.
Proof.
  induction a as [|x a IH]; intros N; [constructor|]. cbn [app] in N. inversion N as [|? ? Nx Na]; subst.
  constructor; [|now apply IH]. intros I. apply Nx. apply in_or_app. now left.
Qed.
Lemma NoDup_app_remove_l {A} (a b : list A) : NoDup (a ++ b) -> NoDup b.
Proof. induction a as [|x a IH]; intros N; [exact N|]. inversion N. now apply IH. Qed.
Definition pair_of (e : entry) := (det_of e, base_of e).
Lemma detectors_ok gs : forall d, (forall k g, In (k, g) gs -> forall e, In e g -> det_of e = k) ->
  NoDup (map pair_of (concat (map snd gs))) ->
  (forall e, In e (concat (map snd gs)) -> dget chars_eqb (base_of e) (dget chars_eqb (det_of e) d []) [] = []) ->
  Permutation (flat2 (fold_left (fun d g => dset chars_eqb (fst g) (bases_into (dget chars_eqb (fst g) d []) (snd g)) d) gs d))
              (flat2 d ++ files_of (concat (map snd gs))).
Proof.
  induction gs as [|[k g] gs IH]; intros d K N F; cbn [fold_left map concat fst snd].
  - cbn [files_of map]. now rewrite app_nil_r.
  - cbn [map concat snd] in N, F. rewrite map_app in N.
    assert (Kg := K k g (or_introl eq_refl)).
    assert (Ng : NoDup (map base_of g)).
    { apply NoDup_app_remove_r in N. clear -N Kg. induction g as [|e g IH]; [constructor|].
      cbn [map] in *. inversion N as [|? ? Ne Nn]; subst. constructor; [|apply IH; [exact Nn|intros x X; apply Kg; now right]].
      intros I. apply Ne. apply in_map_iff in I. destruct I as (e' & E & I). apply in_map_iff. exists e'. split; [|exact I].
      unfold pair_of. rewrite E, (Kg e (or_introl eq_refl)), (Kg e' (or_intror I)). reflexivity. }
    destruct (bases_ok g (dget chars_eqb k d []) Ng) as [P Q].
    { intros e I. specialize (F e (in_or_app _ _ _ (or_introl I))). now rewrite (Kg e I) in F. }
    rewrite IH.
    + unfold files_of. rewrite map_app. fold (files_of g).
      pose proof (dset_flat flat1 [] eq_refl k (bases_into (dget chars_eqb k d []) g) d) as W.
      fold (@flat2 chars chars d) in W. fold (@flat2 chars chars (dset chars_eqb k (bases_into (dget chars_eqb k d []) g) d)) in W.
      rewrite P in W. set (A := flat1 (dget chars_eqb k d [])) in *. clearbody A.
      assert (W' : Permutation (flat2 (dset chars_eqb k (bases_into (dget chars_eqb k d []) g) d)) (flat2 d ++ files_of g)).
      { apply (Permutation_app_inv_r A). rewrite W, <- app_assoc. apply Permutation_app_head. apply Permutation_app_comm. }
      rewrite W', <- app_assoc. reflexivity.
    + intros k' g' I. apply K. now right.
    + now apply NoDup_app_remove_l in N.
    + intros e I. destruct (list_eq_dec ascii_dec k (det_of e)) as [D | D].
      * rewrite <- D, dget_same. destruct (dget chars_eqb (base_of e) (bases_into (dget chars_eqb k d []) g) []) eqn:E; [reflexivity|].
        exfalso. destruct (Q (base_of e)) as [C | C]; [rewrite E; discriminate| |].
        -- apply C. rewrite D. apply F. apply in_or_app. now right.
        -- apply in_map_iff in C. destruct C as (e' & C & I').
           assert (R : forall a b (x : chars * chars), NoDup (a ++ b) -> In x a -> In x b -> False).
           { clear. intros a b x. induction a as [|y a IH]; cbn [app]; intros N A B; [destruct A|].
             inversion N as [|? ? Ny Nn]; subst. destruct A as [-> | A]; [|now apply IH]. apply Ny. apply in_or_app. now right. }
           apply (R _ _ (pair_of e) N); [|now apply in_map].
           apply in_map_iff. exists e'. split; [|exact I']. unfold pair_of. now rewrite C, <- D, (Kg e' I').
      * rewrite dget_other by exact D. apply F. apply in_or_app. now right.
Qed.
(* soundness *)
Definition det_ok (D : list (chars * list (chars * list chars))) : Prop := detectors_of D.
Definition bases_good (k : chars) (B : list (chars * list chars)) : Prop :=
  NoDup (map fst B) /\ forall b F, In (b, F) B -> group_of (fun o => x_det o = k /\ x_base o = b) F.
Lemma bases_sound k v d : Forall (fun e : entry => parse (snd e) = Ok (fst e)) v -> (forall e, In e v -> det_of e = k) ->
  bases_good k d -> bases_good k (bases_into d v).
Proof.
  intros F K. unfold bases_into. change (fun e : xname * chars => x_base (fst e)) with base_of.
  assert (G : forall b g, In (b, g) (groupby chars_eqb base_of v) -> group_of (fun o => x_det o = k /\ x_base o = b) (files_of g)).
  { intros b g I. destruct (groupby_key chars_eqb chars_eqb_spec base_of v b g I) as [Ne Kb].
    destruct (groupby_sub chars_eqb base_of v b g I) as (x & y & E).
    split; [now apply map_ne|]. intros f If. apply in_map_iff in If. destruct If as (e & <- & Ie).
    assert (Iv : In e v) by (rewrite E; apply in_or_app; right; apply in_or_app; now left).
    rewrite Forall_forall in F. exists (fst e). split; [now apply F|]. split; [now apply K|now apply Kb]. }
  revert d.
  enough (Q : forall gs : list (chars * list entry),
    (forall b g, In (b, g) gs -> group_of (fun o => x_det o = k /\ x_base o = b) (files_of g)) ->
    forall d, bases_good k d -> bases_good k (fold_left (fun d g => dset chars_eqb (fst g) (files_of (snd g)) d) gs d))
    by (intros d; now apply Q).
  clear G. intros gs. induction gs as [|[b g] gs IH]; intros G d [N D]; cbn [fold_left fst snd]; [split; assumption|].
  apply IH; [intros b' g' I; apply G; now right|]. split; [now apply dset_nodup|].
  intros b' F' I. apply dset_in in I. destruct I as [[-> ->] | I]; [apply G; now left|now apply D].
Qed.
Lemma detectors_sound v : Forall (fun e : entry => parse (snd e) = Ok (fst e)) v -> detectors_of (detectors_into [] v).
Proof.
  intros F. unfold detectors_into. change (fun e : xname * chars => x_det (fst e)) with det_of.
  assert (G : forall k g, In (k, g) (groupby chars_eqb det_of v) ->
    Forall (fun e : entry => parse (snd e) = Ok (fst e)) g /\ forall e, In e g -> det_of e = k).
  { intros k g I. destruct (groupby_key chars_eqb chars_eqb_spec det_of v k g I) as [Ne Kb].
    destruct (groupby_sub chars_eqb det_of v k g I) as (x & y & E). split; [|exact Kb].
    apply (good_sub v); [exact F|]. intros e Ie. rewrite E. apply in_or_app. right. apply in_or_app. now left. }
  assert (Z : detectors_of []) by (split; [constructor|intros d B []]).
  revert Z.
  enough (Q : forall gs : list (chars * list entry),
    (forall k g, In (k, g) gs ->
      Forall (fun e : entry => parse (snd e) = Ok (fst e)) g /\ forall e, In e g -> det_of e = k) ->
    forall d, detectors_of d ->
    detectors_of (fold_left (fun d g => dset chars_eqb (fst g) (bases_into (dget chars_eqb (fst g) d []) (snd g)) d) gs d))
    by (now apply Q).
  clear G. intros gs. induction gs as [|[k g] gs IH]; intros G d [N D]; cbn [fold_left fst snd]; [split; assumption|].
  apply IH; [intros k' g' I; apply G; now right|]. split; [now apply dset_nodup|].
  intros k' B' I. apply dset_in in I. destruct I as [[-> ->] | I]; [|now apply D].
  destruct (G k g (or_introl eq_refl)) as [Fg Kg]. apply bases_sound; [exact Fg|exact Kg|].
  destruct (dget_in k d []) as [E | E]; [rewrite E; split; [constructor|intros b Q []]|now apply D].
Qed.
Lemma groupdetectors_sound files : (forall f, In f files -> parses f) ->
  exists D, xiagroupdetectors files = Ok D /\ detectors_of D.
Proof.
  intros H. destruct (sorted_good files H) as (l & E & [Sl F] & P). eexists. unfold xiagroupdetectors. rewrite E. cbn [bind].
  split; [reflexivity|]. now apply detectors_sound.
Qed.
Lemma groupdetectors_fact files D : (forall f, In f files -> parses f) ->
  NoDup (map (fun f => match parse f with Ok o => (x_det o, x_base o) | Err _ => ([], []) end) files) ->
  xiagroupdetectors files = Ok D -> Permutation files (flat2 D).
Proof.
  intros H N. destruct (sorted_good files H) as (l & E & [Sl F] & P). unfold xiagroupdetectors. rewrite E. cbn [bind].
  intros R. replace D with (detectors_into [] l) by congruence. rewrite P.
  unfold detectors_into. change (fun e : xname * chars => x_det (fst e)) with det_of. symmetry.
  rewrite (detectors_ok (groupby chars_eqb det_of l) []); rewrite ?groupby_concat.
  - reflexivity.
  - intros k g I. apply (groupby_key chars_eqb chars_eqb_spec det_of l k g I).
  - apply (Permutation_NoDup (Permutation_map _ P)) in N. unfold files_of in N. rewrite map_map in N.
    replace (map pair_of l) with (map (fun x : entry => match parse (snd x) with Ok o => (x_det o, x_base o) | Err _ => ([], []) end) l);
      [exact N|]. apply map_ext_in. intros e I. rewrite Forall_forall in F. rewrite (F e I). reflexivity.
  - reflexivity.
Qed.
(* one detector and one label: nothing is lost *)
Lemma groupby_const {A} (f : A -> chars) k v : v <> [] -> (forall x, In x v -> f x = k) -> groupby chars_eqb f v = [(k, v)].
Proof.
  induction v as [|x v IH]; [congruence|]. intros _ H. cbn [groupby]. destruct v as [|y v].
  - cbn [groupby]. rewrite (H x (or_introl eq_refl)). reflexivity.
  - rewrite IH by (discriminate || (intros z Z; apply H; now right)). rewrite (H x (or_introl eq_refl)).
    now rewrite (proj2 (chars_eqb_spec k k) eq_refl).
Qed.
Lemma groupdetectors_one files k b : (forall f, In f files -> exists o, parse f = Ok o /\ x_det o = k /\ x_base o = b) -> files <> [] ->
  exists F, xiagroupdetectors files = Ok [(k, [(b, F)])] /\ Permutation files F /\ StronglySorted in_order F.
Proof.
  intros H Ne. destruct (sorted_good files) as (l & E & [Sl F] & P).
  { intros f I. destruct (H f I) as (o & Po & _). now exists o. }
  exists (files_of l). unfold xiagroupdetectors. rewrite E. cbn [bind].
  assert (Nl : l <> []) by (intros ->; apply Permutation_sym, Permutation_nil in P; congruence).
  assert (K : forall e, In e l -> det_of e = k /\ base_of e = b).
  { intros e I. destruct (H (snd e)) as (o & Po & A & B).
    - apply (Permutation_in (l := files_of l)); [now symmetry|]. now apply in_map.
    - rewrite Forall_forall in F. assert (o = fst e) by (rewrite (F e I) in Po; congruence). subst o. auto. }
  split; [|split; [exact P|now apply order_files]].
  unfold detectors_into. change (fun e : xname * chars => x_det (fst e)) with det_of.
  rewrite (groupby_const det_of k) by (exact Nl || (intros e I; now apply K)). cbn [fold_left fst snd dget dset].
  unfold bases_into. change (fun e : xname * chars => x_base (fst e)) with base_of.
  rewrite (groupby_const base_of b) by (exact Nl || (intros e I; now apply K)). reflexivity.
Qed.
