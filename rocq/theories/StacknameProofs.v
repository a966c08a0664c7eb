From Coq Require Import String.
From Verif Require Import BaseProofs StacknameSpec TextProofs NameSpec NameProofs.
From Verif Require PathProofs.
Local Open Scope nat_scope.

Lemma path_eqb_spec : decides_eq path_eqb.
Proof. intros p q. unfold path_eqb. destruct (list_eq_dec (list_eq_dec ascii_dec) p q); split; congruence. Qed.
Lemma path_eqb_iff p q : path_eqb p q = true <-> p = q.
Proof. exact (path_eqb_spec p q). Qed.
Lemma path_prefix_spec p : forall q, path_prefix p q = true <-> prefix p q.
Proof.
  unfold prefix. induction p as [|a p IH]; intros q; cbn.
  - split; eauto.
  - destruct q as [|b q]; [split; [discriminate|intros (r & [=])]|]. rewrite andb_true_iff, chars_eqb_spec, IH. split.
    + intros (-> & r & ->). eauto.
    + intros (r & [= -> ->]). eauto.
Qed.
Lemma h5_in_spec h t : h5_in h t = true <-> sits h (locate h t).
Proof.
  unfold h5_in, sits. rewrite orb_true_iff, path_eqb_iff, existsb_exists. split.
  - intros [H|((q & o) & H1 & H2)]; [auto|]. right. exists q, o. split; [exact H1|]. now apply path_prefix_spec.
  - intros [H|(q & o & H1 & H2)]; [auto|]. right. exists (q, o). split; [exact H1|]. now apply path_prefix_spec.
Qed.
Lemma sits_dec h p : {sits h p} + {~ sits h p}.
Proof.
  destruct (path_eqb p [] || existsb (fun o => path_prefix p (fst o)) (content h)) eqn:E.
  - left. apply orb_true_iff in E. rewrite path_eqb_iff, existsb_exists in E. destruct E as [E|((q & o) & H1 & H2)]; [left; exact E|].
    right. exists q, o. split; [exact H1|]. now apply path_prefix_spec.
  - right. apply orb_false_iff in E. destruct E as [E1 E2]. intros [->|(q & o & H1 & H2)].
    + assert (path_eqb [] [] = true) by now apply path_eqb_iff. congruence.
    + assert (existsb (fun o => path_prefix p (fst o)) (content h) = true); [|congruence].
      apply existsb_exists. exists (q, o). split; [exact H1|]. now apply path_prefix_spec.
Qed.

(* ---- paths ---- *)
Lemma components_app a b : components (a ++ slash :: b) = components a ++ components b.
Proof. unfold components. rewrite PathProofs.split_app. apply filter_app. Qed.
Lemma is_slash_slash : is_slash slash = true. Proof. reflexivity. Qed.
Lemma components_slash b : components (slash :: b) = components b.
Proof. exact (components_app [] b). Qed.
Lemma components_word w : ~ In slash w -> w <> [] -> components w = [w].
Proof. intros H N. unfold components. rewrite PathProofs.split_word by assumption. cbn. destruct w; [congruence|reflexivity]. Qed.
Lemma digit_not_slash c : digit c = true -> c <> slash.
Proof. intros H ->. discriminate. Qed.
Lemma digits_no_slash l : digits l -> ~ In slash l.
Proof. unfold digits. rewrite Forall_forall. intros H I. apply H in I. discriminate. Qed.
Lemma entry_no_slash k : (0 <= k)%Z -> ~ In slash (txt "entry" ++ dec k).
Proof.
  intros Hk I. apply in_app_or in I. destruct I as [I|I].
  - cbn in I. intuition discriminate.
  - now apply digits_no_slash in I; [|apply dec_digits].
Qed.

Definition path_at (d : dest) (k : Z) : chars := if (k =? 0)%Z then dir d else numbered d k.
Lemma place_ok d h k name : dir d = [slash] -> (0 <= k)%Z -> locate h (composesetname d (path_at d k) name) = place d k name.
Proof.
  intros Hd Hk. unfold path_at, place, numbered. rewrite Hd. destruct (Z.eqb_spec k 0) as [->|N].
  - unfold composesetname. replace (chars_eqb [slash] [slash]) with true by reflexivity. unfold locate. cbn [isabs app is_slash]. rewrite is_slash_slash. apply components_slash.
  - replace (chars_eqb [slash] [slash]) with true by reflexivity. unfold composesetname.
    assert (chars_eqb ([slash] ++ txt "entry" ++ dec k) [slash] = false) as ->.
    { destruct (chars_eqb _ _) eqn:E; [|reflexivity]. apply chars_eqb_spec in E. discriminate. }
    unfold locate. cbn [app isabs]. rewrite is_slash_slash.
    change (slash :: (txt "entry" ++ dec k) ++ slash :: name ++ ext d) with (slash :: ((txt "entry" ++ dec k) ++ slash :: (name ++ ext d))).
    rewrite components_slash, components_app, components_word; [reflexivity|now apply entry_no_slash|discriminate].
Qed.

Lemma exist_spec d h k : dir d = [slash] -> (0 <= k)%Z ->
  (datasetsexist d h (path_at d k) = true <-> exists name, In name (names d) /\ sits h (place d k name)).
Proof.
  intros Hd Hk. unfold datasetsexist. rewrite negb_true_iff. split.
  - intros H. assert (~ forall name, In name (names d) -> negb (h5_in h (composesetname d (path_at d k) name)) = true) as N.
    { intros C. rewrite (proj2 (forallb_forall _ _)) in H; [discriminate|exact C]. }
    clear H. induction (names d) as [|name l IH]; [exfalso; apply N; intros ? []|].
    destruct (h5_in h (composesetname d (path_at d k) name)) eqn:E.
    + exists name. split; [now left|]. apply h5_in_spec in E. now rewrite place_ok in E.
    + destruct IH as (name' & I & S'). { intros C. apply N. intros x [<-|Hx]; [now rewrite E|auto]. } exists name'. split; [now right|exact S'].
  - intros (name & I & S'). destruct (forallb _ _) eqn:F; [|reflexivity]. rewrite forallb_forall in F. apply F in I. apply negb_true_iff in I.
    rewrite <- (place_ok d h k name Hd Hk) in S'. apply h5_in_spec in S'. congruence.
Qed.

(* ---- the pigeon hole principle for a relation ---- *)
Lemma pigeons {A} (R : nat -> A -> Prop) (l : list A) n : (forall i j x, R i x -> R j x -> i = j) -> (forall i, i < n -> exists x, In x l /\ R i x) -> n <= length l.
Proof.
  intros I H. assert (exists xs, length xs = n /\ NoDup xs /\ incl xs l /\ forall x, In x xs -> exists i, i < n /\ R i x) as (xs & <- & N & L & _).
  2:{ now apply NoDup_incl_length. }
  induction n as [|n IH]; [exists []; split; [reflexivity|]; split; [constructor|]; split; [intros ? []|intros ? []]|].
  destruct IH as (xs & E & N & L & Rx); [intros i Hi; apply H; lia|]. destruct (H n ltac:(lia)) as (x & Hx & Rn).
  exists (x :: xs). split; [cbn; now rewrite E|]. split; [|split].
  - constructor; [|exact N]. intros C. apply Rx in C. destruct C as (i & Hi & Ri). pose proof (I _ _ _ Rn Ri). lia.
  - intros y [<-|Hy]; auto.
  - intros y [<-|Hy]; [exists n; auto|]. apply Rx in Hy. destruct Hy as (i & Hi & Ri). exists i. split; [lia|exact Ri].
Qed.

Lemma entry_inj i j : (0 <= i)%Z -> (0 <= j)%Z -> txt "entry" ++ dec i = txt "entry" ++ dec j -> i = j.
Proof. intros Hi Hj E. apply app_inv_head in E. now apply dec_inj in E. Qed.

Lemma free_path_run d h : dir d = [slash] -> forall fuel k, (0 <= k)%Z ->
  match free_path fuel d h k (path_at d k) with
  | Some p => exists m, p = path_at d m /\ (k <= m < k + Z.of_nat fuel)%Z /\
      (forall name, In name (names d) -> ~ sits h (place d m name)) /\
      forall i, (k <= i < m)%Z -> exists name, In name (names d) /\ sits h (place d i name)
  | None => forall i, (k <= i < k + Z.of_nat fuel)%Z -> exists name, In name (names d) /\ sits h (place d i name)
  end.
Proof.
  intros Hd. induction fuel as [|f IH]; intros k Hk; cbn [free_path]; [intros i Hi; lia|].
  destruct (datasetsexist d h (path_at d k)) eqn:E.
  - assert (numbered d (k + 1) = path_at d (k + 1)) as ->. { unfold path_at. destruct (Z.eqb_spec (k + 1) 0); [lia|reflexivity]. }
    apply exist_spec in E; [|assumption|assumption]. specialize (IH (k + 1)%Z ltac:(lia)). destruct (free_path f d h (k + 1) (path_at d (k + 1))) as [p|].
    + destruct IH as (m & -> & Hm & H1 & H2). exists m. split; [reflexivity|]. split; [lia|]. split; [exact H1|]. intros i Hi.
      destruct (Z.eq_dec i k) as [->|]; [exact E|]. apply H2. lia.
    + intros i Hi. destruct (Z.eq_dec i k) as [->|]; [exact E|]. apply IH. lia.
  - exists k. split; [reflexivity|]. split; [lia|]. split; [|intros; lia]. intros name I S'.
    assert (datasetsexist d h (path_at d k) = true); [|congruence]. apply exist_spec; eauto.
Qed.
Lemma full_entries d h n : (forall i, (1 <= i < 1 + Z.of_nat n)%Z -> exists name, In name (names d) /\ sits h (place d i name)) -> n <= length (content h).
Proof.
  intros H. apply (pigeons (fun i qo => exists q' : list chars, fst qo = (txt "entry" ++ dec (Z.of_nat (S i))) :: q')).
  - intros i j x (q & E) (q' & E'). rewrite E in E'. injection E' as E' _. apply dec_inj in E'; lia.
  - intros i Hi. destruct (H (Z.of_nat (S i)) ltac:(lia)) as (name & _ & S'). unfold place in S'. destruct (Z.eqb_spec (Z.of_nat (S i)) 0); [lia|].
    destruct S' as [S'|(q & o & I & r & ->)]; [discriminate|]. cbn [app] in I. exists ((txt "entry" ++ dec (Z.of_nat (S i))) :: components (name ++ ext d) ++ r, o).
    split; [exact I|]. cbn. eauto.
Qed.
Lemma free_path_ok d h fuel : dir d = [slash] -> S (length (content h)) < fuel ->
  exists m, free_path fuel d h 0 (dir d) = Some (path_at d m) /\ (0 <= m <= 1 + Z.of_nat (length (content h)))%Z /\
      (forall name, In name (names d) -> ~ sits h (place d m name)) /\
      forall i, (0 <= i < m)%Z -> exists name, In name (names d) /\ sits h (place d i name).
Proof.
  intros Hd Hf. pose proof (free_path_run d h Hd fuel 0 ltac:(lia)) as R. change (path_at d 0) with (dir d) in R. destruct (free_path fuel d h 0 (dir d)) as [p|].
  - destruct R as (m & -> & Hm & H1 & H2). exists m. split; [reflexivity|]. split; [|auto].
    destruct (Z_le_gt_dec m (1 + Z.of_nat (length (content h)))); [lia|exfalso].
    assert (S (length (content h)) <= length (content h)); [|lia]. apply (full_entries d). intros i Hi. apply H2. lia.
  - exfalso. assert (S (length (content h)) <= length (content h)); [|lia]. apply (full_entries d). intros i Hi. apply R. lia.
Qed.

(* ---- creating datasets ---- *)
Lemma prefix_dec p q : {prefix p q} + {~ prefix p q}.
Proof. destruct (path_prefix p q) eqn:E; [left; now apply path_prefix_spec|right]. intros H. apply path_prefix_spec in H. congruence. Qed.
Lemma create_spec h t s dt :
  (~ sits h (locate h t) /\ (forall q o, In (q, o) (content h) -> is_data o -> ~ prefix q (locate h t)) ->
   h5_create h t s dt = Ok {| content := (locate h t, Data s dt) :: content h; base := base h |}) /\
  (~ (~ sits h (locate h t) /\ (forall q o, In (q, o) (content h) -> is_data o -> ~ prefix q (locate h t))) -> h5_create h t s dt = Err ValueError).
Proof.
  unfold h5_create. set (g := existsb _ (content h)).
  assert (g = true <-> exists q o, In (q, o) (content h) /\ is_data o /\ prefix q (locate h t)) as G.
  { unfold g. rewrite existsb_exists. split.
    - intros ((q & o) & I & E). cbn in E. destruct o as [|s' t']; [discriminate|]. exists q, (Data s' t'). split; [exact I|]. split; [now exists s', t'|now apply path_prefix_spec].
    - intros (q & o & I & (s' & t' & ->) & P). exists (q, Data s' t'). split; [exact I|]. now apply path_prefix_spec. }
  pose proof (h5_in_spec h t) as Hin. split.
  - intros (N & D). destruct (h5_in h t); [exfalso; apply N; now apply Hin|]. destruct g; [|reflexivity]. destruct (proj1 G eq_refl) as (q & o & I & Do & P). exfalso. now apply (D q o).
  - intros N. destruct (h5_in h t) eqn:E1; [reflexivity|]. destruct g eqn:E2; [reflexivity|]. exfalso. apply N. split.
    + intros S'. apply Hin in S'. discriminate.
    + intros q o I Do P. assert (false = true); [|discriminate]. apply G. eauto.
Qed.
Lemma FOP_inv {A} (R : A -> A -> Prop) a l : ForallOrdPairs R (a :: l) <-> Forall (R a) l /\ ForallOrdPairs R l.
Proof. split; [intros H; inversion H; auto|intros [H1 H2]; now constructor]. Qed.
Lemma room_cons h p ps s dt : room h (p :: ps) <->
  (~ sits h p /\ forall q o, In (q, o) (content h) -> is_data o -> ~ prefix q p) /\
  room {| content := (p, Data s dt) :: content h; base := base h |} ps.
Proof.
  unfold room. rewrite FOP_inv. split.
  - intros (A & B & C). split; [apply A; now left|]. split; [|exact C]. intros q Iq. rewrite Forall_forall in B. destruct (A q (or_intror Iq)) as (A1 & A2).
    split.
    + intros [->|(q' & o & [[= <- <-]|I] & P)]; [apply A1; now left| |].
      * exact (proj2 (B q Iq) P).
      * apply A1. right. eauto.
    + intros q' o [[= <- <-]|I] D P; [exact (proj1 (B q Iq) P)|]. exact (A2 q' o I D P).
  - intros (A & B & C). split; [|split; [|exact C]].
    + intros q [<-|Iq]; [exact A|]. destruct (B q Iq) as (B1 & B2). split.
      * intros [->|(q' & o & I & P)]; apply B1; [now left|]. right. exists q', o. split; [now right|exact P].
      * intros q' o I D. apply (B2 q' o); [now right|exact D].
    + rewrite Forall_forall. intros q Iq. destruct (B q Iq) as (B1 & B2). split.
      * apply (B2 p (Data s dt)); [now left|now exists s, dt].
      * intros P. apply B1. right. exists p, (Data s dt). split; [now left|exact P].
Qed.
Lemma locate_content h c t : locate {| content := c; base := base h |} t = locate h t.
Proof. reflexivity. Qed.
Lemma room_one_dec h p : {~ sits h p /\ forall q o, In (q, o) (content h) -> is_data o -> ~ prefix q p} + {~ (~ sits h p /\ forall q o, In (q, o) (content h) -> is_data o -> ~ prefix q p)}.
Proof.
  destruct (sits_dec h p) as [S'|N]; [right; intros (H & _); auto|].
  assert ({forall q o, In (q, o) (content h) -> is_data o -> ~ prefix q p} + {~ forall q o, In (q, o) (content h) -> is_data o -> ~ prefix q p}) as [D|D].
  { clear N. induction (content h) as [|[q o] l [IH|IH]]; [left; intros ? ? []| |].
    - destruct o as [|s t].
      + left. intros q' o' [[= <- <-]|I] D; [destruct D as (? & ? & [=])|eauto].
      + destruct (prefix_dec q p) as [P|P]; [right; intros H; apply (H q (Data s t)); [now left|now exists s, t|exact P]|].
        left. intros q' o' [[= <- <-]|I] D; [exact P|eauto].
    - right. intros H. apply IH. intros q' o' I. apply H. now right. }
  - left. auto.
  - right. intros (_ & H). auto.
Qed.
Lemma created_spec s dt l : forall h,
  (room h (map (locate h) l) -> createdatasets h l s dt = Ok {| content := rev (map (fun t => (locate h t, Data s dt)) l) ++ content h; base := base h |}) /\
  (~ room h (map (locate h) l) -> createdatasets h l s dt = Err ValueError).
Proof.
  induction l as [|t l IH]; intros h.
  - split; [intros _; destruct h; reflexivity|]. intros N. exfalso. apply N. split; [intros ? []|constructor].
  - cbn [map createdatasets]. rewrite (room_cons h _ _ s dt). destruct (create_spec h t s dt) as (C1 & C2).
    destruct (IH {| content := (locate h t, Data s dt) :: content h; base := base h |}) as (I1 & I2).
    change (map (locate {| content := (locate h t, Data s dt) :: content h; base := base h |}) l) with (map (locate h) l) in I1, I2.
    split.
    + intros (R1 & R2). rewrite (C1 R1). cbn [bind]. rewrite (I1 R2). cbn [content base rev]. rewrite <- app_assoc. reflexivity.
    + intros N. destruct (room_one_dec h (locate h t)) as [R1|R1].
      * rewrite (C1 R1). cbn [bind]. apply I2. auto.
      * rewrite (C2 R1). reflexivity.
Qed.

Lemma map_place d h k : dir d = [slash] -> (0 <= k)%Z -> map (locate h) (setnames d (path_at d k)) = map (place d k) (names d).
Proof. intros Hd Hk. unfold setnames. rewrite map_map. apply map_ext. intros name. now apply place_ok. Qed.

Definition new_file (h : handle) (ps : list (list chars)) (s : list nat) (dt : nat) : handle :=
  {| content := rev (map (fun p => (p, Data s dt)) ps) ++ content h; base := base h |}.
Lemma create_new_ok fuel d h s dt : dir d = [slash] -> S (length (content h)) < fuel ->
  exists k l, (0 <= k <= 1 + Z.of_nat (length (content h)))%Z /\ map (locate h) l = map (place d k) (names d) /\
    (forall name, In name (names d) -> ~ sits h (place d k name)) /\
    (forall i, (0 <= i < k)%Z -> exists name, In name (names d) /\ sits h (place d i name)) /\
    (room h (map (place d k) (names d)) -> create_new fuel d h s dt = Some (Ok (new_file h (map (place d k) (names d)) s dt, l))) /\
    (~ room h (map (place d k) (names d)) -> create_new fuel d h s dt = Some (Err ValueError)).
Proof.
  intros Hd Hf. destruct (free_path_ok d h fuel Hd Hf) as (k & E & Hk & H1 & H2). exists k, (setnames d (path_at d k)).
  assert (map (locate h) (setnames d (path_at d k)) = map (place d k) (names d)) as M by (apply map_place; [exact Hd|lia]).
  split; [exact Hk|]. split; [exact M|]. split; [exact H1|]. split; [exact H2|]. unfold create_new, nonexistingsetnames. rewrite E.
  destruct (created_spec s dt (setnames d (path_at d k)) h) as (C1 & C2). rewrite M in C1, C2. unfold create_at. split; intros R.
  - rewrite (C1 R). cbn [bind]. unfold new_file. rewrite <- M, map_map. reflexivity.
  - now rewrite (C2 R).
Qed.

(* what the new file holds *)
Lemma lookup_app {A B} (eqb : A -> A -> bool) k (l m : list (A * B)) : lookup eqb k (l ++ m) = match lookup eqb k l with Some v => Some v | None => lookup eqb k m end.
Proof. induction l as [|[a b] l IH]; [reflexivity|]. cbn. destruct (eqb k a); auto. Qed.
Lemma lookup_new ps s dt p : lookup path_eqb p (rev (map (fun q => (q, Data s dt)) ps)) = if existsb (path_eqb p) ps then Some (Data s dt) else None.
Proof.
  induction ps as [|q ps IH]; [reflexivity|]. cbn [map rev existsb]. rewrite lookup_app, IH. cbn [lookup].
  destruct (path_eqb p q), (existsb (path_eqb p) ps); reflexivity.
Qed.
Lemma existsb_path p ps : existsb (path_eqb p) ps = true <-> In p ps.
Proof. rewrite existsb_exists. split; [intros (q & I & E); apply path_eqb_iff in E; now subst|intros I; exists p; split; [exact I|now apply path_eqb_iff]]. Qed.
Lemma new_file_in h ps s dt p : In p ps -> lookup path_eqb p (content (new_file h ps s dt)) = Some (Data s dt).
Proof. intros I. cbn [new_file content]. rewrite lookup_app, lookup_new. apply existsb_path in I. now rewrite I. Qed.
Lemma new_file_out h ps s dt p : ~ In p ps -> lookup path_eqb p (content (new_file h ps s dt)) = lookup path_eqb p (content h).
Proof.
  intros I. cbn [new_file content]. rewrite lookup_app, lookup_new. destruct (existsb (path_eqb p) ps) eqn:E; [|reflexivity]. apply existsb_path in E. contradiction.
Qed.

Lemma prepare_new fuel d h s dt : dir d = [slash] -> overwrite d = false -> S (length (content h)) < fuel ->
  exists k, (0 <= k <= 1 + Z.of_nat (length (content h)))%Z /\
    (forall name, In name (names d) -> ~ sits h (place d k name)) /\
    (forall i, (0 <= i < k)%Z -> exists name, In name (names d) /\ sits h (place d i name)) /\
    (room h (map (place d k) (names d)) -> exists h' l, h5_prepare fuel d h s dt = Some (Ok (h', l)) /\ base h' = base h /\
       map (locate h') l = map (place d k) (names d) /\
       (forall name, In name (names d) -> lookup path_eqb (place d k name) (content h') = Some (Data s dt)) /\
       forall p, ~ In p (map (place d k) (names d)) -> lookup path_eqb p (content h') = lookup path_eqb p (content h)) /\
    (~ room h (map (place d k) (names d)) -> h5_prepare fuel d h s dt = Some (Err ValueError)).
Proof.
  intros Hd Ho Hf. destruct (create_new_ok fuel d h s dt Hd Hf) as (k & l & Hk & M & H1 & H2 & C1 & C2). exists k. unfold h5_prepare. rewrite Ho.
  split; [exact Hk|]. split; [exact H1|]. split; [exact H2|]. split; [|exact C2]. intros R. exists (new_file h (map (place d k) (names d)) s dt), l.
  split; [now apply C1|]. split; [reflexivity|]. split; [exact M|]. split.
  - intros name I. apply new_file_in. now apply in_map.
  - intros p N. now apply new_file_out.
Qed.

(* ---- overwriting ---- *)
Lemma get_data h t o : lookup path_eqb (locate h t) (content h) = Some o -> h5_get h t = Ok o.
Proof. intros E. unfold h5_get. now rewrite E. Qed.
Lemma same_shape_refl s : same_shape s s = true.
Proof. induction s; cbn; [reflexivity|now rewrite Nat.eqb_refl]. Qed.
Lemma stripped_not_abs t : stripped t -> isabs t = false.
Proof.
  intros (H & _). destruct t as [|c t]; [reflexivity|]. destruct (H c t eq_refl) as (N & _). cbn. unfold is_slash.
  destruct (ascii_eqb c slash) eqn:E; [|reflexivity]. apply ascii_eqb_spec in E. contradiction.
Qed.
Lemma place_root d name : place d 0 name = components (name ++ ext d). Proof. reflexivity. Qed.
Lemma prepare_same fuel d h s dt : dir d = [slash] -> overwrite d = true -> ext d = [] -> base h = [] -> names d <> [] -> Forall stripped (names d) ->
  (forall name, In name (names d) -> lookup path_eqb (components name) (content h) = Some (Data s dt)) ->
  exists l, h5_prepare fuel d h s dt = Some (Ok (h, l)) /\ map (locate h) l = map components (names d).
Proof.
  intros Hd Ho He Hb Hn Fs H. exists (setnames d (dir d)).
  assert (map (locate h) (setnames d (dir d)) = map components (names d)) as M.
  { change (dir d) with (path_at d 0). rewrite (map_place d h 0 Hd) by lia. apply map_ext. intros name. now rewrite place_root, He, app_nil_r. }
  assert (forall name, In name (names d) -> locate h (composesetname d (dir d) name) = components name) as L.
  { intros name _. change (dir d) with (path_at d 0). rewrite place_ok by (assumption || lia). now rewrite place_root, He, app_nil_r. }
  unfold h5_prepare. rewrite Ho.
  assert (datasetsexist d h (dir d) = true) as ->.
  { change (dir d) with (path_at d 0). apply exist_spec; [exact Hd|lia|]. destruct (names d) as [|name l] eqn:E; [congruence|]. exists name. split; [now left|].
    rewrite place_root, He, app_nil_r. right. exists (components name), (Data s dt). split; [|exists []; now rewrite app_nil_r].
    apply (lookup_Some_In path_eqb path_eqb_spec). apply H. now left. }
  assert (forall nm, incl nm (names d) -> datasetscheck d h s dt nm = Ok true) as C.
  { induction nm as [|name nm IH]; intros I; [reflexivity|]. cbn [datasetscheck].
    assert (In name (names d)) as In1 by (apply I; now left).
    rewrite (get_data h (composesetname d (dir d) name) (Data s dt)) by (rewrite L by assumption; now apply H). cbn [bind shape_of].
    rewrite same_shape_refl. cbn [negb]. rewrite (get_data h name (Data s dt)).
    2:{ unfold locate. rewrite Forall_forall in Fs. rewrite (stripped_not_abs name (Fs name In1)), Hb. cbn [app]. now apply H. }
    cbn [bind dtype_of]. rewrite Nat.eqb_refl. cbn [negb]. apply IH. intros x Hx. apply I. now right. }
  rewrite C by apply incl_refl. split; [|exact M]. f_equal.
  assert (exists r, mapM (h5_get h) (setnames d (dir d)) = Ok r) as (r & ->); [|reflexivity].
  unfold setnames. clear M C Fs Hn. revert L H. generalize (names d). induction l as [|name l IH]; intros L H; [exists []; reflexivity|].
  destruct IH as (r & E); [intros; apply L; now right|intros; apply H; now right|]. cbn [map mapM]. rewrite (get_data h _ (Data s dt)) by (rewrite (L name (or_introl eq_refl)); exact (H name (or_introl eq_refl))).
  cbn [bind]. rewrite E. cbn [bind]. eauto.
Qed.
Lemma prepare_root fuel d h s dt : dir d = [slash] -> overwrite d = true -> (forall name, In name (names d) -> ~ sits h (place d 0 name)) ->
  room h (map (place d 0) (names d)) ->
  exists h' l, h5_prepare fuel d h s dt = Some (Ok (h', l)) /\ map (locate h') l = map (place d 0) (names d) /\
       (forall name, In name (names d) -> lookup path_eqb (place d 0 name) (content h') = Some (Data s dt)) /\
       forall p, ~ In p (map (place d 0) (names d)) -> lookup path_eqb p (content h') = lookup path_eqb p (content h).
Proof.
  intros Hd Ho Hn R. unfold h5_prepare. rewrite Ho. change (dir d) with (path_at d 0).
  assert (datasetsexist d h (path_at d 0) = false) as ->.
  { destruct (datasetsexist d h (path_at d 0)) eqn:E; [|reflexivity]. apply exist_spec in E; [|exact Hd|lia]. destruct E as (name & I & S'). now destruct (Hn name I). }
  destruct (created_spec s dt (setnames d (path_at d 0)) h) as (C1 & _). assert (map (locate h) (setnames d (path_at d 0)) = map (place d 0) (names d)) as M by (apply map_place; [exact Hd|lia]).
  rewrite M in C1. exists (new_file h (map (place d 0) (names d)) s dt), (setnames d (path_at d 0)). unfold create_at. rewrite (C1 R). cbn [bind].
  split; [unfold new_file; rewrite <- M, map_map; reflexivity|]. split; [exact M|]. split.
  - intros name I. apply new_file_in. now apply in_map.
  - intros p N. now apply new_file_out.
Qed.

(* ---- strip ---- *)
Lemma lstrip_head t : forall c r, lstrip_edge t = c :: r -> edge c = false.
Proof. induction t as [|a t IH]; intros c r E; cbn in E; [discriminate|]. destruct (edge a) eqn:Ea; [eauto|]. injection E as <- <-. exact Ea. Qed.
Lemma lstrip_suffix t : exists p, t = p ++ lstrip_edge t.
Proof. induction t as [|a t (p & IH)]; [exists []; reflexivity|]. cbn. destruct (edge a); [exists (a :: p); cbn; now rewrite <- IH|exists []; reflexivity]. Qed.
Lemma edge_not c : edge c = false -> c <> slash /\ c <> backslash.
Proof. intros H. split; intros ->; discriminate. Qed.
Lemma strip_stripped t : stripped (strip_edge t).
Proof.
  unfold strip_edge. split.
  - intros c r E. apply edge_not. set (u := lstrip_edge t) in *. destruct (lstrip_suffix (rev u)) as (p & P).
    assert (u = rev (lstrip_edge (rev u)) ++ rev p) as U by (rewrite <- rev_app_distr, <- P; symmetry; apply rev_involutive).
    rewrite E in U. apply (lstrip_head t c (r ++ rev p)). exact U.
  - intros c r E. apply edge_not. apply (lstrip_head (rev (lstrip_edge t)) c (rev r)).
    rewrite <- (rev_involutive (lstrip_edge (rev (lstrip_edge t)))), E, rev_app_distr. reflexivity.
Qed.

(* ---- one file per image ---- *)
Lemma starts_app p r : starts p (p ++ r) = Some r.
Proof. induction p as [|a p IH]; [reflexivity|]. cbn. now rewrite ascii_eqb_refl. Qed.
Lemma starts_Some p : forall s r, starts p s = Some r -> s = p ++ r.
Proof.
  induction p as [|a p IH]; intros s r E; cbn in E; [injection E as ->; reflexivity|]. destruct s as [|b s]; [discriminate|].
  destruct (ascii_eqb a b) eqn:Eb; [|discriminate]. apply ascii_eqb_spec in Eb. subst b. cbn. f_equal. now apply IH.
Qed.
Lemma ends_with_app m e : ~ In slash m -> ends_with e (m ++ e) = true.
Proof.
  induction m as [|c m IH]; intros N.
  - cbn [app]. destruct e as [|x e]; cbn [ends_with]; (replace (chars_eqb _ _) with true by (symmetry; now apply chars_eqb_spec)); reflexivity.
  - cbn [app ends_with]. assert (is_slash c = false) as ->. { unfold is_slash. apply ascii_eqb_neq. intros ->. apply N. now left. }
    rewrite IH by (intros I; apply N; now right). apply orb_true_r.
Qed.
Lemma ends_with_spec e t : ends_with e t = true -> exists m, t = m ++ e /\ ~ In slash m.
Proof.
  induction t as [|c t IH]; intros H; cbn [ends_with] in H; apply orb_true_iff in H; destruct H as [H|H].
  - apply chars_eqb_spec in H. subst e. exists []. auto.
  - discriminate.
  - apply chars_eqb_spec in H. subst e. exists []. auto.
  - unfold is_slash in H. destruct (ascii_eqb c slash) eqn:E; [discriminate|]. destruct (IH H) as (m & -> & N). exists (c :: m). split; [reflexivity|].
    intros [->|I]; [discriminate|contradiction].
Qed.
Lemma underscore_digits_no_slash w i : (0 <= i)%Z -> ~ In slash (txt "_" ++ format_int w i).
Proof.
  intros Hi I. rewrite format_int_nonneg in I by assumption. apply in_app_or in I. destruct I as [I|I]; [cbn in I; intuition discriminate|].
  apply digits_no_slash in I; [exact I|]. now apply zpad_digits, dec_digits.
Qed.

Lemma exist_files d disk path : files_exist d disk path = false -> exists name, In name (names d) /\ forall f, In f disk -> globs (join2 path name) (ext d) f = false.
Proof.
  unfold files_exist. intros H. induction (names d) as [|name l IH]; [discriminate|]. cbn [forallb] in H.
  destruct (existsb (globs (join2 path name) (ext d)) disk) eqn:E.
  - destruct (IH H) as (name' & I & G). exists name'. split; [now right|exact G].
  - exists name. split; [now left|]. intros f If. destruct (globs (join2 path name) (ext d) f) eqn:G; [|reflexivity].
    assert (existsb (globs (join2 path name) (ext d)) disk = true); [|congruence]. apply existsb_exists. eauto.
Qed.
Lemma free_dir_end d disk : forall fuel k p q, free_dir fuel d disk k p = Some q -> files_exist d disk q = false.
Proof. induction fuel as [|f IH]; intros k p q E; cbn in E; [discriminate|]. destruct (files_exist d disk p) eqn:F; [eauto|]. injection E as <-. exact F. Qed.
Lemma files_new fuel d disk n q w : overwrite d = false -> In (ext d) [txt ".tif"; txt ".tiff"; txt ".edf"] ->
  files_prepare fuel d disk n = Some (Ok (q, w)) ->
  exists name, In name (names d) /\ forall i, (0 <= i)%Z -> ~ In (filename d q w name i) disk.
Proof.
  intros Ho He E. unfold files_prepare in E. rewrite Ho in E. destruct (free_dir fuel d disk 0 (dir d)) as [p|] eqn:F; [|discriminate].
  destruct (n =? 0)%Z; [discriminate|]. injection E as -> _. apply free_dir_end in F. apply exist_files in F. destruct F as (name & I & G).
  exists name. split; [exact I|]. intros i Hi If. apply G in If. unfold filename, globs in If. rewrite starts_app in If.
  assert (written_ext (ext d) = ext d) as W. { destruct He as [<-|[<-|[<-|[]]]]; reflexivity. }
  rewrite W, app_assoc, ends_with_app in If; [discriminate|]. now apply underscore_digits_no_slash.
Qed.

Lemma join2_dir d k s : (0 <= k)%Z -> stripped s -> join2 (dir d ++ txt "_" ++ dec k) s = dir d ++ txt "_" ++ dec k ++ slash :: s.
Proof.
  intros Hk Hs. unfold join2. rewrite (stripped_not_abs s Hs).
  assert (dir d ++ txt "_" ++ dec k <> []) as N by (destruct (dir d); discriminate).
  assert (ends_slash (dir d ++ txt "_" ++ dec k) = false) as E.
  { unfold ends_slash. destruct (dir d ++ txt "_" ++ dec k) eqn:El; [reflexivity|]. rewrite <- El. clear El N. rewrite app_assoc.
    assert (exists r c, dec k = r ++ [c]) as (r & c & Ec) by (destruct (exists_last (dec_nonempty k Hk)) as (r & c & ->); eauto).
    pose proof (dec_digits k Hk) as D. rewrite Ec in D |- *. rewrite app_assoc, last_last. apply Forall_app in D. destruct D as (_ & D). inversion D as [|? ? Dc _]; subst.
    unfold is_slash. apply ascii_eqb_neq. now apply digit_not_slash. }
  rewrite E. destruct (dir d ++ txt "_" ++ dec k) eqn:El; [congruence|]. cbn [orb]. rewrite <- El, <- !app_assoc. reflexivity.
Qed.
Lemma split_digits a : forall b r r', digits a -> digits b -> a ++ slash :: r = b ++ slash :: r' -> a = b.
Proof.
  induction a as [|c a IH]; intros [|c' b] r r' Da Db E; [reflexivity| | |].
  - injection E as E _. inversion Db; subst. discriminate.
  - injection E as E _. inversion Da; subst. discriminate.
  - injection E as -> E. inversion Da; inversion Db; subst. f_equal. eapply IH; eassumption.
Qed.
Lemma free_dir_run d disk : forall fuel k, (1 <= k)%Z -> free_dir fuel d disk k (dir d ++ txt "_" ++ dec k) = None ->
  forall i, (k <= i < k + Z.of_nat fuel)%Z -> files_exist d disk (dir d ++ txt "_" ++ dec i) = true.
Proof.
  induction fuel as [|f IH]; intros k Hk E i Hi; [lia|]. cbn [free_dir] in E. destruct (files_exist d disk (dir d ++ txt "_" ++ dec k)) eqn:F; [|discriminate].
  destruct (Z.eq_dec i k) as [->|]; [exact F|]. apply (IH (k + 1)%Z); [lia|exact E|lia].
Qed.
Lemma free_dir_ok d disk fuel : names d <> [] -> Forall stripped (names d) -> S (length disk) < fuel -> exists q, free_dir fuel d disk 0 (dir d) = Some q.
Proof.
  intros Hn Fs Hf. destruct fuel as [|f]; [lia|]. cbn [free_dir]. destruct (files_exist d disk (dir d)); [|eauto].
  change (0 + 1)%Z with 1%Z. destruct (free_dir f d disk 1 (dir d ++ txt "_" ++ dec 1)) as [q|] eqn:E; [eauto|]. exfalso.
  assert (S (length disk) <= length disk); [|lia].
  apply (pigeons (fun i x => exists r, x = dir d ++ txt "_" ++ dec (Z.of_nat (S i)) ++ slash :: r)).
  - intros i j x (r & ->) (r' & E'). apply app_inv_head in E'. apply app_inv_head in E'. apply split_digits in E'; [|apply dec_digits; lia|apply dec_digits; lia]. apply dec_inj in E'; lia.
  - intros i Hi. pose proof (free_dir_run d disk f 1 ltac:(lia) E (Z.of_nat (S i)) ltac:(lia)) as F. unfold files_exist in F.
    destruct (names d) as [|name l]; [congruence|]. cbn [forallb] in F. apply andb_true_iff in F. destruct F as (F & _). apply existsb_exists in F.
    destruct F as (x & Ix & G). exists x. split; [exact Ix|]. unfold globs in G. destruct (starts _ x) as [r|] eqn:St; [|discriminate]. apply starts_Some in St.
    inversion Fs; subst. rewrite join2_dir in * by (assumption || lia). exists (name ++ r). rewrite <- !app_assoc. reflexivity.
Qed.
Lemma free_dir_loop d disk : names d = [] -> forall fuel k p, free_dir fuel d disk k p = None.
Proof. intros E. induction fuel as [|f IH]; intros k p; [reflexivity|]. cbn [free_dir]. unfold files_exist. rewrite E. cbn [forallb]. apply IH. Qed.

(* names of files *)
Lemma app_same_length {A} (a b c d : list A) : length b = length d -> a ++ b = c ++ d -> a = c /\ b = d.
Proof.
  revert c. induction a as [|x a IH]; intros [|y c] L E; cbn in E.
  - auto.
  - exfalso. rewrite E in L. cbn in L. rewrite app_length in L. lia.
  - exfalso. subst d. cbn in L. rewrite app_length in L. lia.
  - injection E as -> E. destruct (IH c L E) as (-> & ->). auto.
Qed.
Lemma width_ok i n : (0 <= i < n)%Z -> length (zpad (length (dec n)) (dec i)) = length (dec n).
Proof. intros H. rewrite zpad_length. pose proof (dec_length_le i n ltac:(lia)). lia. Qed.
Lemma join2_inj q a b : stripped a -> stripped b -> join2 q a = join2 q b -> a = b.
Proof.
  intros Ha Hb. unfold join2. rewrite (stripped_not_abs a Ha), (stripped_not_abs b Hb). destruct (_ || _); intros E; apply app_inv_head in E; [exact E|now injection E].
Qed.
Lemma filename_inj d q n name name' i i' : stripped name -> stripped name' -> (0 <= i < n)%Z -> (0 <= i' < n)%Z ->
  filename d q (length (dec n)) name i = filename d q (length (dec n)) name' i' -> name = name' /\ i = i'.
Proof.
  intros S1 S2 Hi Hi' E. unfold filename in E. rewrite !format_int_nonneg in E by lia.
  apply app_same_length in E; [|rewrite !app_length, !width_ok by assumption; reflexivity]. destruct E as (E1 & E2). split; [now apply join2_inj in E1|].
  apply app_inv_head in E2. apply app_inv_tail in E2. apply (f_equal int_of) in E2. rewrite !int_of_zpad, !int_of_dec in E2 by lia. exact E2.
Qed.

Lemma value_bound l : digits l -> (0 <= NameSpec.value l < 10 ^ Z.of_nat (length l))%Z.
Proof. intros D. rewrite value_int_of. split; [now apply int_of_nonneg|now apply int_of_bound]. Qed.
Lemma digits_before a : forall b, digits a -> digits b -> length a = length b -> (NameSpec.value a < NameSpec.value b)%Z -> before a b.
Proof.
  induction a as [|c a IH]; intros [|c' b] Da Db L H; try discriminate.
  inversion Da as [|? ? Dc Da']; subst. inversion Db as [|? ? Dc' Db']; subst. cbn [NameSpec.value] in H. injection L as L. rewrite L in H.
  destruct (lt_eq_lt_dec (nat_of_ascii c) (nat_of_ascii c')) as [[Lt|Eq]|Gt].
  - exists [], c, c', a, b. auto.
  - assert (c = c') as <- by (rewrite <- (ascii_nat_embedding c), Eq; apply ascii_nat_embedding).
    destruct (IH b Da' Db' L ltac:(lia)) as (p & x & y & a' & b' & -> & -> & Hxy). exists (c :: p), x, y, a', b'. auto.
  - exfalso. pose proof (value_bound a Da'). pose proof (value_bound b Db'). rewrite L in *. nia.
Qed.
Lemma before_app p a b t u : before a b -> before (p ++ a ++ t) (p ++ b ++ u).
Proof. intros (r & c & d & a' & b' & -> & -> & H). exists (p ++ r), c, d, (a' ++ t), (b' ++ u). rewrite <- !app_assoc. auto. Qed.
Lemma filename_order d q n name i i' : (0 <= i < i')%Z -> (i' < n)%Z ->
  before (filename d q (length (dec n)) name i) (filename d q (length (dec n)) name i').
Proof.
  intros Hi Hi'. unfold filename. rewrite !app_assoc, <- (app_assoc (join2 q name ++ txt "_")), <- (app_assoc (join2 q name ++ txt "_") _ _). rewrite !format_int_nonneg by lia.
  apply before_app. apply digits_before; try (apply zpad_digits, dec_digits; lia).
  - rewrite !width_ok by lia. reflexivity.
  - rewrite !value_int_of, !int_of_zpad, !int_of_dec by lia. lia.
Qed.
Lemma strip_inner t : exists p q, t = p ++ strip_edge t ++ q.
Proof.
  unfold strip_edge. destruct (lstrip_suffix t) as (p & P). destruct (lstrip_suffix (rev (lstrip_edge t))) as (q & Q). exists p, (rev q).
  rewrite <- rev_app_distr, <- Q, rev_involutive. exact P.
Qed.
Lemma init_names nm e ov : Forall stripped (names (h5_init nm e ov)) /\ dir (h5_init nm e ov) = [slash] /\
  forall t, stripped (strip_edge t) /\ exists p q, t = p ++ strip_edge t ++ q.
Proof.
  split; [|split; [reflexivity|intros t; split; [apply strip_stripped|apply strip_inner]]]. cbn [h5_init names]. apply Forall_forall. intros x H.
  apply in_map_iff in H. destruct H as (t & <- & _). apply strip_stripped.
Qed.

(* ---- overwriting datasets of another shape or type ---- *)
Lemma same_shape_spec a b : same_shape a b = true <-> a = b.
Proof.
  revert b. induction a as [|x a IH]; intros [|y b]; cbn; split; intros H; try discriminate; try reflexivity.
  - apply andb_true_iff in H. destruct H as [H1 H2]. apply Nat.eqb_eq in H1. apply IH in H2. congruence.
  - injection H as -> ->. rewrite Nat.eqb_refl. cbn. now apply IH.
Qed.
Lemma prepare_other fuel d h s dt : dir d = [slash] -> overwrite d = true -> ext d = [] -> base h = [] -> Forall stripped (names d) ->
  S (length (content h)) < fuel ->
  (forall name, In name (names d) -> exists s' t', lookup path_eqb (components name) (content h) = Some (Data s' t')) ->
  (exists name, In name (names d) /\ lookup path_eqb (components name) (content h) <> Some (Data s dt)) ->
  exists k, (1 <= k <= 1 + Z.of_nat (length (content h)))%Z /\
    (forall name, In name (names d) -> ~ sits h (place d k name)) /\
    (forall i, (0 <= i < k)%Z -> exists name, In name (names d) /\ sits h (place d i name)) /\
    (room h (map (place d k) (names d)) -> exists h' l, h5_prepare fuel d h s dt = Some (Ok (h', l)) /\
       map (locate h') l = map (place d k) (names d) /\
       (forall name, In name (names d) -> lookup path_eqb (place d k name) (content h') = Some (Data s dt)) /\
       forall p, ~ In p (map (place d k) (names d)) -> lookup path_eqb p (content h') = lookup path_eqb p (content h)) /\
    (~ room h (map (place d k) (names d)) -> h5_prepare fuel d h s dt = Some (Err ValueError)).
Proof.
  intros Hd Ho He Hb Fs Hf H (other & Io & No).
  assert (forall name, In name (names d) -> locate h (composesetname d (dir d) name) = components name) as L.
  { intros name _. change (dir d) with (path_at d 0). rewrite place_ok by (assumption || lia). now rewrite place_root, He, app_nil_r. }
  assert (sits h (place d 0 other)) as Sit.
  { destruct (H other Io) as (s' & t' & E). rewrite place_root, He, app_nil_r. right. exists (components other), (Data s' t').
    split; [|exists []; now rewrite app_nil_r]. now apply (lookup_Some_In path_eqb path_eqb_spec). }
  assert (forall nm, incl nm (names d) -> In other nm -> datasetscheck d h s dt nm = Ok false) as C.
  { induction nm as [|name nm IH]; intros I O; [contradiction|]. cbn [datasetscheck].
    assert (In name (names d)) as In1 by (apply I; now left). destruct (H name In1) as (s' & t' & E).
    rewrite (get_data h (composesetname d (dir d) name) (Data s' t')) by (rewrite L by assumption; exact E). cbn [bind shape_of].
    destruct (same_shape s' s) eqn:Es; cbn [negb]; [|reflexivity]. apply same_shape_spec in Es. subst s'.
    rewrite (get_data h name (Data s t')).
    2:{ unfold locate. rewrite Forall_forall in Fs. rewrite (stripped_not_abs name (Fs name In1)), Hb. cbn [app]. exact E. }
    cbn [bind dtype_of]. destruct (Nat.eqb t' dt) eqn:Et; cbn [negb]; [|reflexivity]. apply Nat.eqb_eq in Et. subst t'.
    apply IH; [intros x Hx; apply I; now right|]. destruct O as [-> | O]; [contradiction|exact O]. }
  assert (h5_prepare fuel d h s dt = create_new fuel d h s dt) as ->.
  { unfold h5_prepare. rewrite Ho.
    assert (datasetsexist d h (dir d) = true) as ->.
    { change (dir d) with (path_at d 0). apply exist_spec; [exact Hd|lia|]. now exists other. }
    now rewrite (C (names d) (incl_refl _) Io). }
  destruct (create_new_ok fuel d h s dt Hd Hf) as (k & l & Hk & M & H1 & H2 & C1 & C2). exists k.
  assert (k <> 0%Z) as K0 by (intros ->; now apply (H1 other Io)).
  split; [lia|]. split; [exact H1|]. split; [exact H2|]. split; [|exact C2]. intros R. exists (new_file h (map (place d k) (names d)) s dt), l.
  split; [now apply C1|]. split; [exact M|]. split.
  - intros name I. apply new_file_in. now apply in_map.
  - intros p N. now apply new_file_out.
Qed.
