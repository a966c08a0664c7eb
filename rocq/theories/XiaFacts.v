From Coq Require Import String.
From Verif Require Import Base Text TextProofs XiaModel XiaSpec XiaProofs XiaNameProofs XiaGroupProofs.
From Verif Require Import XiaModel.
Close Scope string_scope.
Local Open Scope nat_scope.
Local Notation s := list_ascii_of_string.

(* ---- sorting ---- *)
Lemma order_files l : Forall (fun e => parse (snd e) = Ok (fst e)) l -> StronglySorted not_after l ->
  StronglySorted in_order (files_of l).
Proof.
  intros F S. induction S as [|e l S IH N]; [constructor|]. inversion F as [|? ? E F']; subst.
  cbn [files_of map]. constructor; [now apply IH|]. apply Forall_forall. intros g G.
  apply in_map_iff in G. destruct G as (e' & <- & I). rewrite Forall_forall in N, F'.
  intros a b A B. specialize (N e' I). specialize (F' e' I).
  replace a with (fst e) by congruence. replace b with (fst e') by congruence. exact N.
Qed.
Lemma filter_files_of k l : Forall (fun e => parse (snd e) = Ok (fst e)) l ->
  filter (has_key k) (files_of l) = files_of (filter (same_key k) l).
Proof.
  induction 1 as [|e l E F IH]; [reflexivity|]. cbn [files_of map filter]. fold (files_of l).
  replace (has_key k (snd e)) with (same_key k e).
  - destruct (same_key k e); cbn [files_of map]; fold (files_of l); [f_equal|]; exact IH.
  - unfold has_key. rewrite E. reflexivity.
Qed.
Lemma sort_fact files : (forall f, In f files -> parses f) ->
  exists l, sorted_files files = Ok l /\ Permutation files l /\ StronglySorted in_order l /\
            forall k, filter (has_key k) l = filter (has_key k) files.
Proof.
  intros H. destruct (parse_all_total files H) as (l0 & P0).
  exists (files_of (sort l0)). unfold sorted_files, sorted_entries. rewrite P0. cbn [bind].
  destruct (parse_all_ok files l0 P0) as [E F]. pose proof (Permutation_Forall (sort_perm l0) F) as F'.
  split; [reflexivity|]. split; [rewrite <- E; apply Permutation_map, sort_perm|].
  split; [apply order_files; [exact F'|apply sort_sorted]|].
  intros k. rewrite filter_files_of by exact F'. rewrite sort_stable. rewrite <- E.
  symmetry. now apply filter_files_of.
Qed.
Lemma sort_err files f e : In f files -> parse f = Err e -> sorted_entries files = Err RuntimeError.
Proof. intros I E. unfold sorted_entries. rewrite parse_all_err; [reflexivity|]. eauto. Qed.

(* ---- groups ---- *)
Definition good_entries (v : list entry) : Prop := StronglySorted not_after v /\ Forall (fun e => parse (snd e) = Ok (fst e)) v.
Lemma good_sub v g : Forall (fun e : entry => parse (snd e) = Ok (fst e)) v -> (forall x, In x g -> In x v) ->
  Forall (fun e : entry => parse (snd e) = Ok (fst e)) g.
Proof. rewrite !Forall_forall. auto. Qed.
Lemma groupby_ne {K A} (eqb : K -> K -> bool) (f : A -> K) v : v <> [] -> groupby eqb f v <> [].
Proof.
  intros N E. pose proof (groupby_concat eqb f v) as C. rewrite E in C. cbn in C. congruence.
Qed.
Lemma map_ne {A B} (f : A -> B) l : l <> [] -> map f l <> [].
Proof. destruct l; [congruence|discriminate]. Qed.
Lemma lines_fact (P : xname -> Prop) v : good_entries v -> same radix_of v -> same map_of v -> v <> [] ->
  (forall e, In e v -> P (fst e)) -> lines_of P (lines_into [] v).
Proof.
  intros [S F] R M Ne HP. rewrite lines_into_eq by assumption.
  split; [apply map_ne, groupby_ne; exact Ne|]. split.
  - rewrite map_map. cbn [fst]. now apply lines_level.
  - intros l G I. apply in_map_iff in I. destruct I as ([k g] & E & I). cbn [fst snd] in E.
    destruct (group_same Z.eqb Z.eqb_eq line_of v k g I S) as (Sg & _ & Neg & Kg & Sub).
    replace l with k by congruence. replace G with (files_of g) by congruence.
    split; [now apply map_ne|]. intros f If. apply in_map_iff in If. destruct If as (e & <- & Ie).
    exists (fst e). pose proof (good_sub v g F Sub) as Fg. rewrite Forall_forall in Fg.
    split; [now apply Fg|]. split; [apply HP; auto|]. exact (Kg e Ie).
Qed.
Lemma maps_fact (P : xname -> Prop) v : good_entries v -> same radix_of v -> v <> [] ->
  (forall e, In e v -> P (fst e)) -> maps_of P (maps_into [] v).
Proof.
  intros [S F] R Ne HP. rewrite maps_into_eq by assumption.
  split; [apply map_ne, groupby_ne; exact Ne|]. split.
  - rewrite map_map. cbn [fst]. now apply maps_level.
  - intros l G I. apply in_map_iff in I. destruct I as ([k g] & E & I). cbn [fst snd] in E.
    destruct (group_same Z.eqb Z.eqb_eq map_of v k g I S) as (Sg & Mg & Neg & Kg & Sub).
    replace l with k by congruence. replace G with (lines_into [] g) by congruence.
    apply lines_fact; [split; [exact Sg|now apply (good_sub v)]|now apply (same_sub radix_of v)|exact Mg|exact Neg|].
    intros e Ie. split; [apply HP; auto|]. exact (Kg e Ie).
Qed.
Lemma radix_fact v : good_entries v -> radices_of (radix_into [] v).
Proof.
  intros [S F]. rewrite radix_into_eq by assumption. split.
  - rewrite map_map. cbn [fst]. now apply radix_level.
  - intros l G I. apply in_map_iff in I. destruct I as ([k g] & E & I). cbn [fst snd] in E.
    destruct (group_same chars_eqb chars_eqb_spec radix_of v k g I S) as (Sg & Mg & Neg & Kg & Sub).
    replace l with k by congruence. replace G with (maps_into [] g) by congruence.
    apply maps_fact; [split; [exact Sg|now apply (good_sub v)]|exact Mg|exact Neg|].
    intros e Ie. exact (Kg e Ie).
Qed.
Lemma sorted_good files : (forall f, In f files -> parses f) ->
  exists l, sorted_entries files = Ok l /\ good_entries l /\ Permutation files (files_of l).
Proof.
  intros H. destruct (parse_all_total files H) as (l0 & P0).
  exists (sort l0). unfold sorted_entries. rewrite P0. cbn [bind]. split; [reflexivity|].
  assert (E : sorted_entries files = Ok (sort l0)) by (unfold sorted_entries; now rewrite P0).
  apply sorted_entries_spec in E. destruct E as (Q & S & F). split; [split; assumption|exact Q].
Qed.
Lemma group_fact files : (forall f, In f files -> parses f) ->
  exists D, xiagroup files = Ok D /\ Permutation files (flat3 D) /\ StronglySorted in_order (flat3 D) /\ radices_of D.
Proof.
  intros H. destruct (sorted_good files H) as (l & E & G & P). exists (radix_into [] l).
  unfold xiagroup. rewrite E. cbn [bind]. split; [reflexivity|]. destruct G as [S F].
  rewrite flat_radix by exact S. split; [exact P|]. split; [now apply order_files|]. now apply radix_fact.
Qed.
Lemma from_files {B} (h : xname -> B) (b : B) files l : Permutation files (files_of l) ->
  Forall (fun e : entry => parse (snd e) = Ok (fst e)) l ->
  (forall f o, In f files -> parse f = Ok o -> h o = b) -> forall e, In e l -> h (fst e) = b.
Proof.
  intros P F H e I. rewrite Forall_forall in F. apply (H (snd e)); [|now apply F].
  apply (Permutation_in (l := files_of l)); [now symmetry|]. now apply in_map.
Qed.
Lemma groupmaps_fact files r : (forall f, In f files -> parses f) -> files <> [] ->
  (forall f o, In f files -> parse f = Ok o -> x_radix o = r) ->
  exists M, xiagroupmaps files = Ok M /\ Permutation files (flat2 M) /\ StronglySorted in_order (flat2 M) /\
            maps_of (fun o => x_radix o = r) M.
Proof.
  intros H Ne R. destruct (sorted_good files H) as (l & E & G & P). exists (maps_into [] l).
  unfold xiagroupmaps. rewrite E. cbn [bind]. split; [reflexivity|]. destruct G as [S F].
  pose proof (from_files x_radix r files l P F R) as R'.
  assert (Sr : same radix_of l) by (intros a b A B; unfold radix_of; now rewrite (R' a A), (R' b B)).
  rewrite flat_maps by assumption. split; [exact P|]. split; [now apply order_files|].
  apply maps_fact; [split; assumption|exact Sr| |exact R'].
  intros ->. apply Permutation_sym, Permutation_nil in P. congruence.
Qed.
Lemma grouplines_fact files r m : (forall f, In f files -> parses f) -> files <> [] ->
  (forall f o, In f files -> parse f = Ok o -> x_radix o = r) ->
  (forall f o, In f files -> parse f = Ok o -> x_map o = m) ->
  exists L, xiagrouplines files = Ok L /\ Permutation files (flat1 L) /\ StronglySorted in_order (flat1 L) /\
            lines_of (fun o => x_radix o = r /\ x_map o = m) L.
Proof.
  intros H Ne R M. destruct (sorted_good files H) as (l & E & G & P). exists (lines_into [] l).
  unfold xiagrouplines. rewrite E. cbn [bind]. split; [reflexivity|]. destruct G as [S F].
  pose proof (from_files x_radix r files l P F R) as R'. pose proof (from_files x_map m files l P F M) as M'.
  assert (Sr : same radix_of l) by (intros a b A B; unfold radix_of; now rewrite (R' a A), (R' b B)).
  assert (Sm : same map_of l) by (intros a b A B; unfold map_of; now rewrite (M' a A), (M' b B)).
  rewrite flat_lines by assumption. split; [exact P|]. split; [now apply order_files|].
  apply lines_fact; [split; assumption|exact Sr|exact Sm| |intros e I; split; auto].
  intros ->. apply Permutation_sym, Permutation_nil in P. congruence.
Qed.

(* ---- xiagroupmaps2 ---- *)
Lemma str_int_no_under n : ~ In underscore (str_int n).
Proof.
  assert (D : forall m, (0 <= m)%Z -> ~ In underscore (dec m)).
  { intros m Hm I. pose proof (dec_digits m Hm) as Q. unfold NameSpec.digits in Q. rewrite Forall_forall in Q.
    specialize (Q _ I). discriminate. }
  unfold str_int. destruct (Z.ltb_spec n 0).
  - intros [I | I]; [discriminate|]. revert I. apply D. lia.
  - now apply D.
Qed.
Lemma str_int_inj a b : str_int a = str_int b -> a = b.
Proof.
  assert (N : forall m c t, (0 <= m)%Z -> dec m = c :: t -> c <> ch 45).
  { intros m c t Hm E ->. pose proof (dec_digits m Hm) as Q. unfold NameSpec.digits in Q. rewrite Forall_forall in Q.
    specialize (Q (ch 45)). rewrite E in Q. specialize (Q (or_introl eq_refl)). discriminate. }
  unfold str_int. destruct (Z.ltb_spec a 0), (Z.ltb_spec b 0); intros E.
  - assert (E' : dec (- a) = dec (- b)) by congruence.
    apply (f_equal int_of) in E'. rewrite !int_of_dec in E' by lia. lia.
  - symmetry in E. now apply N in E.
  - now apply N in E.
  - apply (f_equal int_of) in E. rewrite !int_of_dec in E by lia. exact E.
Qed.
Lemma last_under d d' a a' : ~ In underscore d -> ~ In underscore d' ->
  a ++ s "_" ++ d = a' ++ s "_" ++ d' -> a = a' /\ d = d'.
Proof.
  intros N N'. revert a'; induction a as [|c a IH]; intros [|c' a'] E.
  - split; [reflexivity|]. cbn in E. congruence.
  - exfalso. assert (E2 : d = a' ++ s "_" ++ d') by (cbn in E; cbn; congruence).
    apply N. rewrite E2. apply in_or_app. right. now left.
  - exfalso. assert (E2 : d' = a ++ s "_" ++ d) by (cbn in E; cbn; congruence).
    apply N'. rewrite E2. apply in_or_app. right. now left.
  - change (c :: (a ++ s "_" ++ d) = c' :: (a' ++ s "_" ++ d')) in E.
    assert (c = c') by congruence. subst c'. destruct (IH a') as [-> ->]; [congruence|auto].
Qed.
Lemma map_name_inj r m r' m' : map_name r m = map_name r' m' -> r = r' /\ m = m'.
Proof.
  unfold map_name. intros E. apply last_under in E; [|apply str_int_no_under|apply str_int_no_under].
  destruct E as [-> E]. apply str_int_inj in E. auto.
Qed.
Definition flat_keys (l : list entry) : list (chars * Z * list entry) :=
  concat (map (fun g => map (fun h => (fst g, fst h, snd h)) (groupby Z.eqb map_of (snd g))) (groupby chars_eqb radix_of l)).
Lemma fold_left_concat {A B C} (f : A -> B -> A) (h : C -> list B) gs : forall d,
  fold_left (fun d g => fold_left f (h g) d) gs d = fold_left f (concat (map h gs)) d.
Proof. induction gs as [|g gs IH]; intros d; [reflexivity|]. cbn [fold_left map concat]. now rewrite fold_left_app, IH. Qed.
Lemma fold_left_map {A B C} (f : A -> B -> A) (h : C -> B) gs : forall d,
  fold_left (fun d g => f d (h g)) gs d = fold_left f (map h gs) d.
Proof. induction gs as [|g gs IH]; intros d; [reflexivity|]. cbn [fold_left map]. apply IH. Qed.
Lemma fold_left_ext {A B} (f g : A -> B -> A) l : (forall a b, f a b = g a b) -> forall d, fold_left f l d = fold_left g l d.
Proof. intros E. induction l as [|b l IH]; intros d; [reflexivity|]. cbn [fold_left]. now rewrite E. Qed.
Lemma nodup_concat {A} (ls : list (list A)) : Forall (@NoDup A) ls ->
  (forall i j a, nth_error ls i <> None -> nth_error ls j <> None -> In a (nth i ls []) -> In a (nth j ls []) -> i = j) ->
  NoDup (concat ls).
Proof.
  induction 1 as [|x ls N F IH]; intros D; [constructor|]. cbn [concat].
  assert (IH' : NoDup (concat ls)).
  { apply IH. intros i j a Hi Hj Ii Ij. specialize (D (S i) (S j) a Hi Hj Ii Ij). lia. }
  assert (X : forall a, In a x -> ~ In a (concat ls)).
  { intros a Ia Ic. apply in_concat in Ic. destruct Ic as (y & Iy & Ia').
    apply In_nth_error in Iy. destruct Iy as (j & J).
    specialize (D 0 (S j) a). cbn [nth_error nth] in D. rewrite (nth_error_nth ls j [] J) in D.
    assert (0 = S j) by (apply D; [discriminate|congruence|exact Ia|exact Ia']). discriminate. }
  clear D IH F. induction x as [|a x IHx]; [exact IH'|]. cbn [app]. inversion N; subst. constructor.
  - intros I. apply in_app_or in I. destruct I as [I | I]; [auto|]. now apply (X a (or_introl eq_refl)).
  - apply IHx; [assumption|]. intros b Ib. apply X. now right.
Qed.
Lemma flat_keys_nodup l : StronglySorted not_after l -> NoDup (map fst (flat_keys l)).
Proof.
  intros Sl. unfold flat_keys. rewrite concat_map, map_map.
  pose proof (radix_level l Sl) as RL. apply (sorted_nodup text_lt text_lt_irrefl) in RL.
  apply nodup_concat.
  - apply Forall_forall. intros ks I. apply in_map_iff in I. destruct I as ([r g] & <- & I).
    destruct (group_same chars_eqb chars_eqb_spec radix_of l r g I Sl) as (Sg & Mg & _).
    rewrite map_map. cbn [fst snd].
    replace (map (fun x => (r, fst x)) (groupby Z.eqb map_of g)) with (map (pair r) (map fst (groupby Z.eqb map_of g)))
      by (now rewrite map_map).
    apply FinFun.Injective_map_NoDup; [intros x y; congruence|].
    apply (sorted_nodup Z.lt); [intros x; lia|]. now apply maps_level.
  - intros i j a Hi Hj Ii Ij. rewrite nth_error_map in Hi, Hj.
    destruct (nth_error (groupby chars_eqb radix_of l) i) as [[ri gi]|] eqn:Ei; [|cbn in Hi; congruence].
    destruct (nth_error (groupby chars_eqb radix_of l) j) as [[rj gj]|] eqn:Ej; [|cbn in Hj; congruence].
    assert (Q : forall k r g, nth_error (groupby chars_eqb radix_of l) k = Some (r, g) ->
      In a (nth k (map (fun x => map fst (map (fun h => (fst x, fst h, snd h)) (groupby Z.eqb map_of (snd x)))) (groupby chars_eqb radix_of l)) []) ->
      fst a = r).
    { intros k r g Ek Ia. rewrite (nth_error_nth _ k [] (map_nth_error _ k _ Ek)) in Ia. cbn [fst snd] in Ia.
      apply in_map_iff in Ia. destruct Ia as (x & <- & Ix). apply in_map_iff in Ix. destruct Ix as (h & <- & _). reflexivity. }
    assert (ri = rj) by (rewrite <- (Q i ri gi Ei Ii); exact (Q j rj gj Ej Ij)). subst rj.
    apply (proj1 (NoDup_nth_error (map fst (groupby chars_eqb radix_of l))) RL i j).
    + rewrite map_length. apply nth_error_Some. congruence.
    + rewrite !nth_error_map, Ei, Ej. reflexivity.
Qed.
Lemma maps2_eq l : StronglySorted not_after l ->
  fold_left (fun d g =>
        fold_left (fun d h =>
          let k := map_name (fst g) (fst h) in
          dset chars_eqb k (lines_into (dget chars_eqb k d []) (snd h)) d)
          (groupby Z.eqb (fun e : entry => x_map (fst e)) (snd g)) d)
        (groupby chars_eqb (fun e : entry => x_radix (fst e)) l) [] =
  map (fun x => (map_name (fst (fst x)) (snd (fst x)), lines_into [] (snd x))) (flat_keys l).
Proof.
  intros Sl.
  set (f := fun (d : list (chars * list (Z * list chars))) (x : chars * list entry) =>
              dset chars_eqb (fst x) (lines_into (dget chars_eqb (fst x) d []) (snd x)) d).
  set (nm := fun x : chars * Z * list entry => (map_name (fst (fst x)) (snd (fst x)), snd x)).
  transitivity (fold_left f (map nm (flat_keys l)) []).
  - unfold flat_keys. rewrite concat_map, map_map. rewrite <- fold_left_concat. apply fold_left_ext. intros d [r g].
    rewrite map_map. cbn [fst snd]. rewrite <- fold_left_map. reflexivity.
  - subst f. rewrite (fold_dset chars_eqb chars_eqb_spec lines_into []).
    + cbn [app]. rewrite map_map. reflexivity.
    + cbn [app map]. rewrite map_map. pose proof (flat_keys_nodup l Sl) as N.
      replace (map (fun x => fst (nm x)) (flat_keys l)) with (map (fun k => map_name (fst k) (snd k)) (map fst (flat_keys l)))
        by (now rewrite map_map).
      apply FinFun.Injective_map_NoDup; [|exact N]. intros [r m] [r' m'] E. cbn [fst snd] in E.
      apply map_name_inj in E. destruct E as [-> ->]. reflexivity.
Qed.
Lemma in_flat_keys l r m g : In (r, m, g) (flat_keys l) -> StronglySorted not_after l ->
  StronglySorted not_after g /\ same radix_of g /\ same map_of g /\ g <> [] /\
  (forall e, In e g -> radix_of e = r /\ map_of e = m /\ In e l).
Proof.
  intros I Sl. unfold flat_keys in I. apply in_concat in I. destruct I as (ks & Ik & I).
  apply in_map_iff in Ik. destruct Ik as ([r' g'] & <- & Ik). cbn [fst snd] in I.
  apply in_map_iff in I. destruct I as ([m' g2] & E & I). cbn [fst snd] in E.
  assert (r' = r) by congruence. assert (m' = m) by congruence. assert (g2 = g) by congruence. subst r' m' g2. clear E.
  destruct (group_same chars_eqb chars_eqb_spec radix_of l r g' Ik Sl) as (Sg & Rg & _ & Kr & Sub).
  destruct (group_same Z.eqb Z.eqb_eq map_of g' m g I Sg) as (Sg2 & Mg & Ne & Km & Sub2).
  split; [exact Sg2|]. split; [now apply (same_sub radix_of g')|]. split; [exact Mg|]. split; [exact Ne|].
  intros e Ie. split; [apply Kr; auto|]. split; auto.
Qed.
Lemma flat_keys_concat l : concat (map snd (flat_keys l)) = l.
Proof.
  unfold flat_keys. rewrite <- (groupby_concat chars_eqb radix_of l) at 2.
  induction (groupby chars_eqb radix_of l) as [|[r g] gs IH]; [reflexivity|].
  cbn [map concat fst snd]. rewrite map_app, concat_app, IH. f_equal. rewrite map_map. cbn [snd].
  exact (groupby_concat Z.eqb map_of g).
Qed.
Lemma groupmaps2_fact files : (forall f, In f files -> parses f) ->
  exists D, xiagroupmaps2 files = Ok D /\ Permutation files (flat2 D) /\ StronglySorted in_order (flat2 D) /\
    NoDup (map fst D) /\
    forall k L, In (k, L) D -> exists r m, k = r ++ s "_" ++ str_int m /\ lines_of (fun o => x_radix o = r /\ x_map o = m) L.
Proof.
  intros H. destruct (sorted_good files H) as (l & E & [Sl F] & P). eexists.
  unfold xiagroupmaps2. rewrite E. cbn [bind]. split; [reflexivity|]. rewrite maps2_eq by exact Sl.
  assert (Q : flat2 (map (fun x => (map_name (fst (fst x)) (snd (fst x)), lines_into [] (snd x))) (flat_keys l)) = files_of l).
  { unfold flat2. rewrite map_map. cbn [snd]. rewrite <- (flat_keys_concat l) at 2. unfold files_of.
    rewrite concat_map, map_map. f_equal. apply map_ext_in. intros [[r m] g] I. cbn [snd].
    destruct (in_flat_keys l r m g I Sl) as (Sg & Rg & Mg & _). now apply flat_lines. }
  rewrite Q. split; [exact P|]. split; [now apply order_files|]. split.
  - rewrite map_map. cbn [fst]. pose proof (flat_keys_nodup l Sl) as N.
    replace (map (fun x => map_name (fst (fst x)) (snd (fst x))) (flat_keys l))
      with (map (fun k => map_name (fst k) (snd k)) (map fst (flat_keys l))) by (now rewrite map_map).
    apply FinFun.Injective_map_NoDup; [|exact N]. intros [r m] [r' m'] E'. cbn [fst snd] in E'.
    apply map_name_inj in E'. destruct E' as [-> ->]. reflexivity.
  - intros k L I. apply in_map_iff in I. destruct I as ([[r m] g] & E' & I). cbn [fst snd] in E'.
    exists r, m. replace k with (map_name r m) by congruence. replace L with (lines_into [] g) by congruence.
    split; [reflexivity|]. destruct (in_flat_keys l r m g I Sl) as (Sg & Rg & Mg & Ne & Ke).
    apply lines_fact; [split; [exact Sg|]|exact Rg|exact Mg|exact Ne|].
    + apply (good_sub l); [exact F|]. intros e Ie. apply Ke. exact Ie.
    + intros e Ie. split; apply (Ke e Ie).
Qed.
Lemma group_err files f e : In f files -> parse f = Err e ->
  xiagroup files = Err RuntimeError /\ xiagroupmaps files = Err RuntimeError /\ xiagrouplines files = Err RuntimeError /\
  xiagroupmaps2 files = Err RuntimeError /\ xiagroupdetectors files = Err RuntimeError.
Proof.
  intros I E. unfold xiagroup, xiagroupmaps, xiagrouplines, xiagroupmaps2, xiagroupdetectors.
  now rewrite (sort_err files f e I E).
Qed.

(* occurrences can be computed *)
Fixpoint occursb (p t : chars) : bool :=
  match starts p t with
  | Some _ => true
  | None => match t with [] => false | _ :: t' => occursb p t' end
  end.
Lemma occursb_spec p t : occurs p t -> occursb p t = true.
Proof.
  intros (a & b & ->). induction a as [|c a IH].
  - cbn [app]. destruct (p ++ b) eqn:E; cbn [occursb]; rewrite <- E, starts_app; reflexivity.
  - cbn [app occursb]. rewrite IH. now destruct (starts p (c :: a ++ p ++ b)).
Qed.
Fixpoint numberedb (t : chars) : bool :=
  match t with
  | [] => false
  | c :: t' => (ascii_eqb c underscore && forallb digit t' && (4 <=? length t')) || numberedb t'
  end.
Lemma numberedb_spec t : numbered t -> numberedb t = true.
Proof.
  intros (a & d & -> & D & L). induction a as [|c a IH].
  - change ([] ++ s "_" ++ d) with (underscore :: d). cbn [numberedb]. rewrite ascii_eqb_refl, D. cbn [andb].
    apply Nat.leb_le in L. now rewrite L.
  - change ((c :: a) ++ s "_" ++ d) with (c :: (a ++ s "_" ++ d)). cbn [numberedb]. rewrite IH. apply Bool.orb_true_r.
Qed.
Lemma counter_hyp : default_names ++ [] = [s "PUZ_arr"; s "PUZ_xmap"] ++ s "xmap" :: [s "arr"; s "zap"; s "mosca"] /\
  counter_of (s "xmap") (s "xmap_x1_03") /\
  unambiguous [s "PUZ_arr"; s "PUZ_xmap"] (s "xmap") (s "scan_2") (s "xmap_x1_03") /\ ~ numbered (s "xmap_x1_03").
Proof.
  split; [reflexivity|]. split; [exists (s "_x1_03"); split; [reflexivity|discriminate]|]. split; [split|].
  - intros c [<- | [<- | []]] O; apply occursb_spec in O; discriminate.
  - intros O. apply occursb_spec in O. discriminate.
  - intros N. apply numberedb_spec in N. discriminate.
Qed.
