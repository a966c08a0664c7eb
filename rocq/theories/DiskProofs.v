From Verif Require Import Text TextProofs DiskModel DiskSpec.
From Coq Require Import Lia.
Local Open Scope nat_scope.

Lemma ceq_refl x : chars_eqb x x = true. Proof. now apply chars_eqb_spec. Qed.
Lemma ceq_cases x y : chars_eqb x y = true /\ x = y \/ chars_eqb x y = false /\ x <> y.
Proof. destruct (chars_eqb x y) eqn:E; [left|right]; split; auto. now apply chars_eqb_spec. intros H. apply chars_eqb_spec in H. congruence. Qed.

(* ---- below ---- *)
Lemma below_iff p : forall q r, below p q = Some r <-> q = p ++ r.
Proof.
  induction p as [|x p IH]; intros q r; cbn [below]. { split; [now intros [= ->]|now intros ->]. }
  destruct q as [|y q]; [split; discriminate|]. destruct (ceq_cases x y) as [[E ->]|[E N]]; rewrite E.
  - rewrite IH. cbn [app]. split; [now intros ->|now intros [= ->]].
  - split; [discriminate|]. cbn [app]. intros [= -> _]. now destruct N.
Qed.
Lemma below_app p r : below p (p ++ r) = Some r. Proof. now apply below_iff. Qed.
Lemma below_refl p : below p p = Some []. Proof. apply below_iff. now rewrite app_nil_r. Qed.
Lemma below_none p q : below p q = None <-> forall r, q <> p ++ r.
Proof.
  split. - intros H r E. apply below_iff in E. congruence.
  - intros H. destruct (below p q) as [r|] eqn:E; [|reflexivity]. apply below_iff in E. now destruct (H r).
Qed.
Lemma below_trans p q r a b : below p q = Some a -> below q r = Some b -> below p r = Some (a ++ b).
Proof. rewrite !below_iff. intros -> ->. now rewrite app_assoc. Qed.
Lemma below_last p : p <> [] -> below p (removelast p) = None.
Proof. intros H. apply below_none. intros r E. pose proof (app_removelast_last [] H) as L. apply (f_equal (@length _)) in E. apply (f_equal (@length _)) in L. rewrite app_length in E, L. cbn in L. unfold chars in *. lia. Qed.

(* ---- the tree ---- *)
Lemma get_put l x v y : get (put l x v) y = if chars_eqb x y then v else get l y.
Proof.
  assert (F : get (filter (fun e => negb (chars_eqb x (fst e))) l) y = if chars_eqb x y then None else get l y).
  { induction l as [|[z n] l IH]; cbn [filter get fst]; [now destruct (chars_eqb x y)|].
    destruct (ceq_cases x z) as [[E ->]|[E N]]; rewrite E; cbn [negb get].
    - rewrite IH. destruct (ceq_cases z y) as [[E' ->]|[E' N']]; rewrite E'; [reflexivity|]. destruct (ceq_cases y z) as [[_ ->]|[-> _]]; [congruence|reflexivity].
    - rewrite IH. destruct (ceq_cases y z) as [[E' ->]|[E' N']]; rewrite E'; [now rewrite E|reflexivity]. }
  unfold put. destruct v as [n|]; [|exact F]. cbn [get]. destruct (ceq_cases y x) as [[E ->]|[E N]]; rewrite E; [reflexivity|]. rewrite F. destruct (ceq_cases x y) as [[_ ->]|[-> _]]; [congruence|reflexivity].
Qed.
Lemma look_app n p q : look n (p ++ q) = match look n p with Some m => look m q | None => None end.
Proof. revert n. induction p as [|x p IH]; intros n; cbn [app look]; [reflexivity|]. destruct n as [d|l|a t]; try reflexivity. destruct (get l x) as [m|]; [apply IH|reflexivity]. Qed.
Lemma peek_app n p q m : look n p = Some m -> peek n (p ++ q) = peek m q.
Proof. intros H. unfold peek. now rewrite look_app, H. Qed.
Lemma peek_none_app n p q : peek n p = None -> peek n (p ++ q) = None.
Proof. unfold peek. rewrite look_app. destruct (look n p); [discriminate|reflexivity]. Qed.
Lemma peek_above n p q t : peek n (p ++ q) = Some t -> q <> [] -> peek n p = Some ADir.
Proof.
  unfold peek. rewrite look_app. destruct (look n p) as [m|]; [|discriminate]. destruct q as [|x q]; [congruence|]. intros H _. destruct m; cbn [look] in H; try discriminate. reflexivity.
Qed.
Lemma peek_leaf n p q : q <> [] -> peek n p <> Some ADir -> peek n (p ++ q) = None.
Proof. intros Q H. destruct (peek n (p ++ q)) as [t|] eqn:E; [|reflexivity]. now apply peek_above in E. Qed.
Lemma some_inj {A} (a b : A) : Some a = Some b -> a = b. Proof. congruence. Qed.
Lemma peek_edit p : forall n v n' q, edit n p v = Some n' ->
  peek n' q = match below p q with Some r => match v with Some m => peek m r | None => None end | None => peek n q end.
Proof.
  induction p as [|x p IH]; intros n v n' q E; [discriminate|]. cbn [edit] in E. destruct n as [d|l|a t]; try discriminate.
  destruct q as [|y q].
  { cbn [below]. destruct p as [|x' p']; [apply some_inj in E; subst n'; reflexivity|]. destruct (get l x) as [m|]; [|discriminate]. destruct (edit m (x' :: p') v); [|discriminate]. apply some_inj in E; subst n'. reflexivity. }
  cbn [below]. destruct p as [|x' p'].
  - apply some_inj in E; subst n'. unfold peek at 1. cbn [look]. rewrite get_put. destruct (ceq_cases x y) as [[E ->]|[E N]]; rewrite E; [cbn [below]; destruct v; reflexivity|reflexivity].
  - destruct (get l x) as [m|] eqn:G; [|discriminate]. destruct (edit m (x' :: p') v) as [m'|] eqn:E'; [|discriminate]. apply some_inj in E; subst n'.
    unfold peek at 1. cbn [look]. rewrite get_put. destruct (ceq_cases x y) as [[E ->]|[E N]]; rewrite E; [|reflexivity].
    change (match look m' q with Some n => Some (thing_of n) | None => None end) with (peek m' q). rewrite (IH _ _ _ q E'). destruct (below (x' :: p') q) as [r|]; [reflexivity|]. unfold peek. cbn [look]. now rewrite G.
Qed.
Lemma removelast_cons {A} (x : A) l : l <> [] -> removelast (x :: l) = x :: removelast l.
Proof. now destruct l. Qed.
Lemma edit_ok p : forall n v, p <> [] -> peek n (removelast p) = Some ADir -> exists n', edit n p v = Some n'.
Proof.
  induction p as [|x p IH]; intros n v H K; [congruence|]. cbn [edit]. destruct p as [|x' p'].
  - cbn in K. destruct n; try discriminate. eauto.
  - rewrite removelast_cons in K by discriminate. destruct n as [d|l|a t]; try discriminate. unfold peek in K. cbn [look] in K. destruct (get l x) as [m|]; [|discriminate].
    destruct (IH m v) as [n' E]; [discriminate|exact K|]. cbn [removelast] in *. rewrite E. eauto.
Qed.
Lemma edit_dir p : forall n v n', edit n p v = Some n' -> p <> [] /\ peek n (removelast p) = Some ADir.
Proof.
  induction p as [|x p IH]; intros n v n' E; [discriminate|]. split; [discriminate|]. cbn [edit] in E. destruct n as [d|l|a t]; try discriminate. destruct p as [|x' p']; [reflexivity|].
  destruct (get l x) as [m|] eqn:G; [|discriminate]. destruct (edit m (x' :: p') v) as [m'|] eqn:E'; [|discriminate]. rewrite removelast_cons by discriminate. unfold peek. cbn [look]. rewrite G. now apply IH in E'.
Qed.

(* ---- following links ---- *)
Lemma resolve_nil f root d : resolve f root d [] = Some d. Proof. now destruct f. Qed.
Lemma resolve_up f root d t : resolve f root d (Up :: t) = resolve f root (removelast d) t. Proof. now destruct f. Qed.
Lemma resolve_nm f root d n t : resolve f root d (Nm n :: t) =
  match look root (d ++ [n]) with
  | Some (Link abs tgt) => match f with 0 => None | S f' => resolve f' root (if abs then [] else d) (tgt ++ t) end
  | Some _ => resolve f root (d ++ [n]) t
  | None => match t with [] => Some (d ++ [n]) | _ => None end
  end.
Proof. destruct f; reflexivity. Qed.
Lemma resolve_grown root root1 : grown root root1 -> forall f t d q, resolve f root d t = Some q -> resolve f root1 d t = Some q.
Proof.
  intros G f. induction f as [f IHf] using lt_wf_ind. intros t. induction t as [|[|n] t IHt]; intros d q H.
  - now rewrite resolve_nil in *.
  - rewrite resolve_up in *. now apply IHt.
  - rewrite resolve_nm in *. specialize (G (d ++ [n])). unfold peek in G. destruct (look root (d ++ [n])) as [[dd|l|a tg]|] eqn:E.
    + destruct (look root1 (d ++ [n])) as [[]|]; destruct G as [G|[G _]]; try discriminate. now apply IHt.
    + destruct (look root1 (d ++ [n])) as [[]|]; destruct G as [G|[G _]]; try discriminate. now apply IHt.
    + destruct (look root1 (d ++ [n])) as [[]|]; destruct G as [G|[G _]]; try discriminate. injection G as -> ->. destruct f as [|f]; [discriminate|]. apply IHf; [lia|exact H].
    + destruct t as [|c t]; [|discriminate]. injection H as <-. destruct (look root1 (d ++ [n])) as [[]|]; destruct G as [G|[_ G]]; try discriminate; now rewrite ?resolve_nil.
Qed.
Lemma resolve_last root f : forall t d q n m, resolve f root d t = Some q -> look root (q ++ [n]) = Some m -> (forall a tg, m <> Link a tg) -> resolve f root d (t ++ [Nm n]) = Some (q ++ [n]).
Proof.
  induction f as [f IHf] using lt_wf_ind. intros t. induction t as [|[|x] t IHt]; intros d q n m H L NL.
  - rewrite resolve_nil in H. injection H as <-. cbn [app]. rewrite resolve_nm, L. destruct m as [dd|l|a tg]; [now rewrite resolve_nil|now rewrite resolve_nil|now destruct (NL a tg)].
  - cbn [app]. rewrite resolve_up in *. now apply IHt with m.
  - cbn [app]. rewrite resolve_nm in *. destruct (look root (d ++ [x])) as [[dd|l|a tg]|] eqn:E.
    + now apply IHt with m.
    + now apply IHt with m.
    + destruct f as [|f]; [discriminate|]. rewrite app_assoc. apply IHf with m; [lia|exact H|exact L|exact NL].
    + destruct t as [|c t]; [|discriminate]. injection H as <-. rewrite look_app, E in L. discriminate.
Qed.
Lemma resolve_plain root f p : forall d, (forall a b, p = a ++ b -> a <> [] -> forall ab t, peek root (d ++ a) <> Some (ALink ab t)) -> (forall a b, p = a ++ b -> b <> [] -> peek root (d ++ a) <> None) ->
  resolve f root d (map Nm p) = Some (d ++ p).
Proof.
  induction p as [|x p IH]; intros d H K; cbn [map]; [now rewrite resolve_nil, app_nil_r|]. rewrite resolve_nm.
  assert (L : forall ab t, peek root (d ++ [x]) <> Some (ALink ab t)) by (intros; apply (H [x] p); [reflexivity|discriminate]). unfold peek in L.
  assert (N : p <> [] -> peek root (d ++ [x]) <> None) by (intros Q; apply (K [x] p); [reflexivity|exact Q]). unfold peek in N.
  assert (IH' : resolve f root (d ++ [x]) (map Nm p) = Some (d ++ x :: p)).
  { replace (d ++ x :: p) with ((d ++ [x]) ++ p) by (now rewrite <- app_assoc). apply IH.
    - intros a b E NA ab t. rewrite <- app_assoc. apply (H (x :: a) b); [now rewrite E|discriminate].
    - intros a b E NB. rewrite <- app_assoc. apply (K (x :: a) b); [now rewrite E|exact NB]. }
  destruct (look root (d ++ [x])) as [[dd|l|a t]|]; [exact IH'|exact IH'|now destruct (L a t)|].
  destruct p as [|y p]; [reflexivity|]. now destruct N.
Qed.

Lemma look_edit p : forall n m n', edit n p (Some m) = Some n' -> look n' p = Some m.
Proof.
  induction p as [|x p IH]; intros n m n' E; [discriminate|]. cbn [edit] in E. destruct n as [d|l|a t]; try discriminate. destruct p as [|x' p'].
  - apply some_inj in E. subst n'. cbn [look]. now rewrite get_put, ceq_refl.
  - destruct (get l x) as [m0|]; [|discriminate]. destruct (edit m0 (x' :: p') (Some m)) as [m'|] eqn:E'; [|discriminate]. apply some_inj in E. subst n'. cbn [look]. rewrite get_put, ceq_refl. now apply IH in E'.
Qed.
Lemma resolve_split root f : forall t d n z, resolve f root d (t ++ [Nm n]) = Some z -> exists q f', resolve f root d t = Some q /\ resolve f' root q [Nm n] = Some z.
Proof.
  induction f as [f IHf] using lt_wf_ind. intros t. induction t as [|[|x] t IHt]; intros d n z H.
  - exists d, f. split; [apply resolve_nil|exact H].
  - cbn [app] in H. rewrite resolve_up in *. now apply IHt.
  - cbn [app] in H. rewrite resolve_nm in *. destruct (look root (d ++ [x])) as [[dd|l|a tg]|] eqn:E.
    + now apply IHt.
    + now apply IHt.
    + destruct f as [|f]; [discriminate|]. rewrite app_assoc in H. apply IHf in H; [exact H|lia].
    + destruct (t ++ [Nm n]) eqn:E'; [now apply app_eq_nil in E'|discriminate].
Qed.
Lemma split_last (p a b : path) : p <> [] -> removelast p = a ++ b -> p = a ++ (b ++ [last p []]).
Proof. intros N E. transitivity (removelast p ++ [last p []]); [now apply (app_removelast_last [])|]. transitivity ((a ++ b) ++ [last p []]); [f_equal; exact E|]. symmetry. apply app_assoc. Qed.
Section Disk.
Variable maxlinks limit : nat.
Variable device : path -> nat.
Variable candidates : list chars.
Notation real := (real maxlinks). Notation lreal := (lreal maxlinks). Notation stat := (stat maxlinks). Notation lstat := (lstat maxlinks).
Notation exists_ := (exists_ maxlinks). Notation lexists := (lexists maxlinks). Notation isdir := (isdir maxlinks). Notation isfile := (isfile maxlinks). Notation islink := (islink maxlinks).

Lemma plain_parent root p : plain root p -> real root (removelast p) = Some (removelast p).
Proof.
  intros [N H]. unfold DiskModel.real. pose proof (app_removelast_last [] N) as L. apply (resolve_plain root maxlinks (removelast p) []).
  - intros a b E NA ab t. cbn [app]. rewrite (H a (b ++ [last p []])); [discriminate|now apply split_last|destruct b; discriminate].
  - intros a b E NB. cbn [app]. rewrite (H a (b ++ [last p []])); [discriminate|now apply split_last|destruct b; discriminate].
Qed.
Lemma plain_lreal root p : plain root p -> lreal root p = Some p.
Proof. intros P. unfold DiskModel.lreal. destruct p as [|x p]; [now destruct P|]. rewrite plain_parent by exact P. destruct P as [N _]. f_equal. symmetry. now apply (app_removelast_last []). Qed.
Lemma plain_real root p : plain root p -> (forall ab t, peek root p <> Some (ALink ab t)) -> real root p = Some p.
Proof.
  intros [N H] L. unfold DiskModel.real. apply (resolve_plain root maxlinks p []).
  - intros a b E NA ab t. cbn [app]. destruct b as [|y b]; [rewrite app_nil_r in E; subst a; apply L|]. rewrite (H a (y :: b)); [discriminate|exact E|discriminate].
  - intros a b E NB. cbn [app]. rewrite (H a b); [discriminate|exact E|exact NB].
Qed.
Lemma plain_lstat root p : plain root p -> lstat root p = look root p.
Proof. intros P. unfold DiskModel.lstat. now rewrite plain_lreal. Qed.
Lemma plain_stat root p : plain root p -> (forall ab t, peek root p <> Some (ALink ab t)) -> stat root p = look root p.
Proof. intros P L. unfold DiskModel.stat. now rewrite plain_real. Qed.
Lemma look_plain root p n : p <> [] -> look root p = Some n -> plain root p.
Proof. intros N H. split; [exact N|]. intros a b -> NB. apply (peek_above root a b (thing_of n)); [unfold peek; now rewrite H|exact NB]. Qed.
Lemma lstat_stat root p m : lstat root p = Some m -> (forall a t, m <> Link a t) -> stat root p = Some m.
Proof.
  unfold DiskModel.lstat, DiskModel.stat, DiskModel.lreal, DiskModel.real. destruct p as [|x p]; [cbn [map]; now rewrite resolve_nil|].
  destruct (resolve maxlinks root [] (map Nm (removelast (x :: p)))) as [d|] eqn:E; [|discriminate]. intros L NL.
  assert (M : map Nm (x :: p) = map Nm (removelast (x :: p)) ++ [Nm (last (x :: p) [])]) by (rewrite (app_removelast_last [] (l := x :: p)) at 1 by discriminate; now rewrite map_app).
  rewrite M. rewrite (resolve_last root maxlinks _ _ _ _ _ E L NL). exact L.
Qed.
Lemma lreal_grown root root1 p q : grown root root1 -> lreal root p = Some q -> lreal root1 p = Some q.
Proof.
  intros G. unfold DiskModel.lreal, DiskModel.real. destruct p as [|x p]; [auto|]. destruct (resolve maxlinks root [] (map Nm (removelast (x :: p)))) as [d|] eqn:E; [|discriminate].
  now rewrite (resolve_grown _ _ G _ _ _ _ E).
Qed.
Lemma real_grown root root1 p q : grown root root1 -> real root p = Some q -> real root1 p = Some q.
Proof. intros G. unfold DiskModel.real. apply resolve_grown, G. Qed.
Lemma grown_refl a : grown a a. Proof. intros q. now left. Qed.
Lemma grown_trans a b c : grown a b -> grown b c -> grown a c.
Proof. intros H K q. destruct (H q) as [E|[E F]], (K q) as [E'|[E' F']]; try (left; congruence); try (right; split; congruence). Qed.
Lemma grown_keep a b q t : grown a b -> peek a q = Some t -> peek b q = Some t.
Proof. intros G H. destruct (G q) as [->|[E _]]; congruence. Qed.

(* ---- making directories ---- *)
Lemma mkdir1_grown root p r root' : os_mkdir maxlinks p root = (r, root') -> grown root root'.
Proof.
  unfold os_mkdir, set_at. destruct (lexists root p) eqn:L; [intros [= _ <-]; apply grown_refl|]. destruct (lreal root p) as [q|] eqn:E; [|intros [= _ <-]; apply grown_refl].
  destruct (edit root q (Some (Dir []))) as [n'|] eqn:D; [|intros [= _ <-]; apply grown_refl]. intros [= _ <-] z. rewrite (peek_edit _ _ _ _ z D). destruct (below q z) as [y|] eqn:B; [|now left].
  apply below_iff in B. subst z. unfold DiskModel.lexists, DiskModel.lstat in L. rewrite E in L. destruct (look root q) eqn:K; [discriminate|]. assert (PN : peek root q = None) by (unfold peek; now rewrite K).
  rewrite (peek_none_app _ _ _ PN). destruct y as [|c y]; [right; split; reflexivity|left; reflexivity].
Qed.
Lemma makedirs_grown rest : forall above root r root', os_makedirs_from maxlinks above rest root = (r, root') -> grown root root'.
Proof.
  induction rest as [|x rest IH]; intros above root r root' H.
  - injection H as _ <-. apply grown_refl.
  - cbn [os_makedirs_from] in H. destruct rest as [|y rest]; [now apply mkdir1_grown in H|].
    destruct (exists_ root (above ++ [x])); [now apply IH in H|]. destruct (os_mkdir maxlinks (above ++ [x]) root) as [[u|e] r1] eqn:E; apply mkdir1_grown in E.
    + apply IH in H. now apply grown_trans with r1.
    + destruct e; try (injection H as _ <-; exact E). apply IH in H. now apply grown_trans with r1.
Qed.
Lemma mkdir_grown root p rec force r root' : mkdir maxlinks rec force p root = (r, root') -> grown root root'.
Proof.
  unfold mkdir. destruct (exists_ root p); [destruct force; cbn [negb]; [destruct (isfile root p)|]; intros [= _ <-]; apply grown_refl|].
  destruct rec. - destruct (os_makedirs maxlinks p root) as [u r1] eqn:E. intros H. apply makedirs_grown in E. destruct u as [u|[]]; injection H as _ <-; exact E.
  - destruct (exists_ root (parent p)); cbn [negb]; [|intros [= _ <-]; apply grown_refl]. apply mkdir1_grown.
Qed.
Theorem mkdir_keeps : forall root p rec force r root', mkdir maxlinks rec force p root = (r, root') -> grown root root'.
Proof. exact mkdir_grown. Qed.

(* ---- the destination ---- *)
Notation target := (target maxlinks).
Lemma prepare_noforce root src dest rename r root1 : prepare maxlinks limit src dest false rename root = (r, root1) ->
  grown root root1 /\ (exists_ root (target root src dest rename) = true -> r = Err AlreadyExists /\ root1 = root) /\
  (forall d, r = Ok d -> d = target root src dest rename /\ exists_ root d = false) /\ (r = Err AlreadyExists -> root1 = root).
Proof.
  unfold prepare. fold (target root src dest rename). set (d := target root src dest rename). unfold bnd, fail, ret. destruct (exists_ root d) eqn:E.
  - intros [= <- <-]. split; [apply grown_refl|]. split; [auto|]. split; [discriminate|reflexivity].
  - cbv beta iota. destruct (exists_ root (parent d)) eqn:P.
    + intros [= <- <-]. split; [apply grown_refl|]. split; [discriminate|]. split; [|discriminate]. intros d' [= <-]. auto.
    + destruct (mkdir maxlinks true true (parent d) root) as [[u|e] r1] eqn:M; intros [= <- <-]; (split; [now apply mkdir_grown in M|]); (split; [discriminate|]); (split; [|]); try discriminate.
      * intros d' [= <-]. auto.
      * intros [= ->]. unfold mkdir in M. rewrite P in M. cbn [negb] in M. destruct (os_makedirs maxlinks (parent d) root) as [[u|[]] r2] eqn:O; try discriminate M.
        exfalso. clear - O. revert O. unfold os_makedirs. generalize (@nil chars) as above. generalize (parent d) as pd. clear d. intros pd above. revert root above r2. induction pd as [|x rest IH]; intros root above r2 H; [discriminate|].
        cbn [os_makedirs_from] in H. assert (K : forall p root r2, os_mkdir maxlinks p root = (Err AlreadyExists, r2) -> False).
        { intros p rt rr. unfold os_mkdir, set_at, eexist. destruct (lexists rt p); [discriminate|]. destruct (lreal rt p); [|discriminate]. destruct (edit _ _ _); discriminate. }
        destruct rest as [|y rest]; [now apply K in H|]. destruct (exists_ root (above ++ [x])); [now apply IH in H|]. destruct (os_mkdir maxlinks (above ++ [x]) root) as [[u|[]] r1] eqn:E; try discriminate H; try now apply IH in H. now apply K in E.
Qed.

(* ---- what is at the destination ---- *)
Lemma stat_above root p x z : real root (p ++ [x]) = Some z -> exists q f', real root p = Some q /\ resolve f' root q [Nm x] = Some z.
Proof. unfold DiskModel.real. rewrite map_app. intros H. apply resolve_split in H. exact H. Qed.
Lemma lreal_app root p x : lreal root (p ++ [x]) = match real root p with Some d => Some (d ++ [x]) | None => None end.
Proof. unfold DiskModel.lreal. rewrite removelast_last, last_last. destruct (p ++ [x]) eqn:E; [now apply app_eq_nil in E|reflexivity]. Qed.
Lemma fresh_lstat root p x : stat root p = Some (Dir []) -> lstat root (p ++ [x]) = None.
Proof. unfold DiskModel.stat, DiskModel.lstat. rewrite lreal_app. destruct (real root p) as [q|]; [|reflexivity]. intros H. now rewrite look_app, H. Qed.
Lemma fresh_stat root p x : stat root p = Some (Dir []) -> stat root (p ++ [x]) = None.
Proof.
  intros H. unfold DiskModel.stat. destruct (real root (p ++ [x])) as [z|] eqn:E; [|reflexivity]. destruct (stat_above _ _ _ _ E) as (q & f' & Q & R). unfold DiskModel.stat in H. rewrite Q in H.
  rewrite resolve_nm in R. assert (L : look root (q ++ [x]) = None) by (now rewrite look_app, H). rewrite L in R. injection R as <-. exact L.
Qed.
Lemma mkdir1_ok root p u root' : os_mkdir maxlinks p root = (Ok u, root') -> stat root' p = Some (Dir []).
Proof.
  intros H. pose proof (mkdir1_grown _ _ _ _ H) as G. unfold os_mkdir, set_at in H. destruct (lexists root p) eqn:L; [discriminate|]. destruct (lreal root p) as [q|] eqn:E; [|discriminate].
  destruct (edit root q (Some (Dir []))) as [n'|] eqn:D; [|discriminate]. injection H as _ <-. apply lstat_stat; [|discriminate]. unfold DiskModel.lstat. rewrite (lreal_grown _ _ _ _ G E).
  now apply look_edit in D.
Qed.
Lemma fresh_dirs rest : forall above root k root', stat root above = Some (Dir []) -> os_makedirs_from maxlinks above rest root = (Err (UserError k), root') -> False.
Proof.
  induction rest as [|x rest IH]; intros above root k root' H K; [discriminate|]. cbn [os_makedirs_from] in K.
  assert (M : forall k r, os_mkdir maxlinks (above ++ [x]) root = (Err (UserError k), r) -> False).
  { intros k' r. unfold os_mkdir, set_at, DiskModel.lexists. rewrite (fresh_lstat _ _ x H). destruct (lreal root (above ++ [x])); [|discriminate]. destruct (edit _ _ _); discriminate. }
  destruct rest as [|y rest]; [now apply M in K|]. unfold DiskModel.exists_ in K. rewrite (fresh_stat _ _ x H) in K.
  destruct (os_mkdir maxlinks (above ++ [x]) root) as [[u|[]] r1] eqn:E; try discriminate K; [|now destruct (M _ _ eq_refl)]. apply mkdir1_ok in E. now apply IH in K.
Qed.
Lemma dirs_unchanged rest : forall above root k root', os_makedirs_from maxlinks above rest root = (Err (UserError k), root') -> root' = root.
Proof.
  assert (M : forall p root k r, os_mkdir maxlinks p root = (Err (UserError k), r) -> r = root).
  { intros p root k r. unfold os_mkdir, set_at. destruct (lexists root p); [now intros [= _ <-]|]. destruct (lreal root p); [|discriminate]. destruct (edit _ _ _); discriminate. }
  induction rest as [|x rest IH]; intros above root k root' K; [discriminate|]. cbn [os_makedirs_from] in K. destruct rest as [|y rest]; [now apply M in K|].
  destruct (exists_ root (above ++ [x])); [now apply IH in K|]. destruct (os_mkdir maxlinks (above ++ [x]) root) as [[u|[]] r1] eqn:E; try discriminate K.
  - apply mkdir1_ok in E. now apply fresh_dirs in K.
  - apply M in E. subst r1. now apply IH in K.
Qed.
Lemma dirs_made rest : forall above root u root', rest <> [] -> os_makedirs_from maxlinks above rest root = (Ok u, root') -> stat root' (above ++ rest) = Some (Dir []).
Proof.
  induction rest as [|x rest IH]; intros above root u root' N K; [congruence|]. cbn [os_makedirs_from] in K. destruct rest as [|y rest]; [now apply mkdir1_ok in K|].
  assert (S : forall root, os_makedirs_from maxlinks (above ++ [x]) (y :: rest) root = (Ok u, root') -> stat root' (above ++ x :: y :: rest) = Some (Dir [])).
  { intros r1 H. apply IH in H; [|discriminate]. now rewrite <- app_assoc in H. }
  destruct (exists_ root (above ++ [x])); [now apply S in K|]. destruct (os_mkdir maxlinks (above ++ [x]) root) as [[v|[]] r1] eqn:E; try discriminate K; now apply S in K.
Qed.
Lemma prepare_free root src dest rename d root1 : prepare maxlinks limit src dest false rename root = (Ok d, root1) ->
  lstat root1 d = None \/ exists a t, lstat root1 d = Some (Link a t).
Proof.
  intros H. pose proof (prepare_noforce _ _ _ _ _ _ H) as (_ & _ & T & _). destruct (T _ eq_refl) as [-> X]. clear T. revert H X. unfold prepare. fold (target root src dest rename). set (d := target root src dest rename). clearbody d.
  unfold bnd, fail, ret. intros H X. rewrite X in H. cbv beta iota in H.
  assert (OLD : root1 = root -> lstat root1 d = None \/ exists a t, lstat root1 d = Some (Link a t)).
  { intros ->. destruct (lstat root d) as [m|] eqn:L; [|now left]. destruct m as [c|l|a t]; [| |right; eauto]; apply lstat_stat in L; try discriminate; unfold DiskModel.exists_ in X; rewrite L in X; discriminate. }
  destruct (exists_ root (parent d)) eqn:P; [injection H as <-; now apply OLD|].
  destruct (mkdir maxlinks true true (parent d) root) as [[u|e] r1] eqn:M; [|discriminate]. injection H as <-. unfold mkdir in M. rewrite P in M.
  destruct d as [|x0 d0]; [cbn in P; unfold DiskModel.exists_, DiskModel.stat, DiskModel.real in P; cbn [map] in P; rewrite resolve_nil in P; discriminate P|]. set (d := x0 :: d0) in *.
  assert (PN : parent d <> []) by (intros E; rewrite E in P; unfold DiskModel.exists_, DiskModel.stat, DiskModel.real in P; cbn [map] in P; rewrite resolve_nil in P; discriminate P).
  destruct (os_makedirs maxlinks (parent d) root) as [[v|e] r2] eqn:O.
  - injection M as _ <-. apply dirs_made in O; [|exact PN]. cbn [app] in O. left. assert (E : d = parent d ++ [last d []]) by (apply (app_removelast_last []); discriminate). rewrite E. now apply fresh_lstat.
  - destruct e; try discriminate M. injection M as _ <-. apply dirs_unchanged in O. now apply OLD.
Qed.

(* ---- move ---- *)
Lemma rename_ok root src dest root' : os_rename maxlinks device src dest root = (Renamed, root') -> exists s d, lreal root src = Some s /\ lreal root dest = Some d /\ peek root s <> None /\ (s = d \/ below s d = None) /\ moved root root' s d.
Proof.
  unfold os_rename. destruct (lreal root src) as [s|]; [|discriminate]. destruct (lreal root dest) as [d|]; [|discriminate]. destruct (look root s) as [n|] eqn:L; [|discriminate].
  destruct (negb _); [discriminate|]. intros H. exists s, d. split; [reflexivity|]. split; [reflexivity|]. split; [unfold peek; rewrite L; discriminate|].
  unfold same_path, starts_with in H. destruct (below s d) as [[|z r]|] eqn:B.
  - apply below_iff in B. rewrite app_nil_r in B. subst d. injection H as <-. split; [now left|]. intros q. destruct (below s q) as [r|] eqn:Q; [|reflexivity]. apply below_iff in Q. now subst q.
  - discriminate.
  - split; [now right|]. destruct (match look root d with Some (Dir []) => is_dir (Some n) | Some (Dir _) => false | Some _ => negb (is_dir (Some n)) | None => true end); [|discriminate].
    destruct (edit root s None) as [r1|] eqn:E1; [|discriminate]. destruct (edit r1 d (Some n)) as [r2|] eqn:E2; [|discriminate]. injection H as <-.
    intros q. rewrite (peek_edit _ _ _ _ q E2). destruct (below d q) as [r|]; [symmetry; now apply peek_app|]. rewrite (peek_edit _ _ _ _ q E1). reflexivity.
Qed.
Lemma rename_fails root src dest r root' : os_rename maxlinks device src dest root = (r, root') -> r <> Renamed -> root' = root.
Proof.
  unfold os_rename. destruct (lreal root src) as [s|]; [|now intros [= _ <-]]. destruct (lreal root dest) as [d|]; [|now intros [= _ <-]]. destruct (look root s) as [n|]; [|now intros [= _ <-]].
  destruct (negb _); [now intros [= _ <-]|]. destruct (same_path s d); [intros [= <- _]; congruence|]. destruct (starts_with s d); [now intros [= _ <-]|].
  match goal with |- context [if ?b then _ else _] => destruct b end; [|now intros [= _ <-]]. destruct (edit root s None) as [r1|]; [|now intros [= _ <-]]. destruct (edit r1 d (Some n)) as [r2|]; [|now intros [= _ <-]]. intros [= <- _]. congruence.
Qed.
Lemma rename_same_device root src dest root' : (forall p q, device p = device q) -> os_rename maxlinks device src dest root = (CrossDevice, root') -> False.
Proof.
  intros D. unfold os_rename. destruct (lreal root src) as [s|]; [|discriminate]. destruct (lreal root dest) as [d|]; [|discriminate]. destruct (look root s) as [n|]; [|discriminate].
  rewrite (D (removelast s) (removelast d)), Nat.eqb_refl. cbn [negb]. destruct (same_path s d); [discriminate|]. destruct (starts_with s d); [discriminate|].
  match goal with |- context [if ?b then _ else _] => destruct b end; [|discriminate]. destruct (edit root s None) as [r1|]; [|discriminate]. destruct (edit r1 d (Some n)) as [r2|]; discriminate.
Qed.
Theorem move_moves : forall root src dest rename dest' root', (forall p q, device p = device q) -> lexists root src = true ->
  move maxlinks limit device candidates src dest false rename root = (Ok dest', root') ->
  dest' = target root src dest rename /\ exists_ root dest' = false /\
  exists root1 s d, grown root root1 /\ lreal root src = Some s /\ lreal root1 dest' = Some d /\ moved root1 root' s d /\ (peek root1 d = None \/ exists a t, peek root1 d = Some (ALink a t)).
Proof.
  intros root src dest rename dest' root' D LX H. unfold move, bnd in H. destruct (prepare maxlinks limit src dest false rename root) as [[d|e] root1] eqn:P; [|discriminate].
  pose proof (prepare_noforce _ _ _ _ _ _ P) as (G & _ & T & _). pose proof (prepare_free _ _ _ _ _ _ P) as F. destruct (T _ eq_refl) as [TD X].
  destruct (os_rename maxlinks device src d root1) as [[| |] root2] eqn:R; [| |discriminate].
  - injection H as <- <-. split; [exact TD|]. split; [exact X|]. apply rename_ok in R. destruct R as (s & dd & RS & RD & PS & _ & M). exists root1, s, dd. split; [exact G|]. split.
    + unfold DiskModel.lexists, DiskModel.lstat in LX. destruct (lreal root src) as [s'|] eqn:S'; [|discriminate]. pose proof (lreal_grown _ _ _ _ G S') as E. congruence.
    + split; [exact RD|]. split; [exact M|]. unfold DiskModel.lstat in F. rewrite RD in F. unfold peek. destruct F as [F|(a & t & F)]; rewrite F; [now left|right; exists a, t; reflexivity].
  - now apply rename_same_device in R.
Qed.
Lemma relocate_file (a b : node) s d q c : moved a b s d -> (peek a d = None \/ exists ab t, peek a d = Some (ALink ab t)) -> peek a q = Some (AFile c) -> peek b (relocate s d q) = Some (AFile c).
Proof.
  intros M F H. unfold relocate. destruct (below s q) as [r|] eqn:B; rewrite M.
  - rewrite below_app. apply below_iff in B. now subst q.
  - rewrite B. destruct (below d q) as [r|] eqn:E; [|exact H]. apply below_iff in E. subst q. exfalso. destruct r as [|z r]; [rewrite app_nil_r in H; destruct F as [F|(? & ? & F)]; congruence|].
    rewrite peek_leaf in H; [discriminate|discriminate|]. destruct F as [F|(? & ? & F)]; congruence.
Qed.
(* every file is kept, none is invented and no two are mixed up *)
Theorem move_files : forall root src dest rename dest' root', (forall p q, device p = device q) -> lexists root src = true ->
  move maxlinks limit device candidates src dest false rename root = (Ok dest', root') ->
  exists s d, (forall q c, peek root q = Some (AFile c) -> peek root' (relocate s d q) = Some (AFile c)) /\
    (forall z c, peek root' z = Some (AFile c) -> exists q, peek root q = Some (AFile c) /\ relocate s d q = z) /\
    (forall q q' c c', peek root q = Some (AFile c) -> peek root q' = Some (AFile c') -> relocate s d q = relocate s d q' -> q = q').
Proof.
  intros root src dest rename dest' root' D LX H. destruct (move_moves _ _ _ _ _ _ D LX H) as (_ & _ & root1 & s & d & G & _ & _ & M & F). exists s, d.
  assert (UP : forall q c, peek root q = Some (AFile c) -> peek root1 q = Some (AFile c)) by (intros q c K; now apply grown_keep with root).
  assert (DN : forall q c, peek root1 q = Some (AFile c) -> peek root q = Some (AFile c)) by (intros q c K; destruct (G q) as [E|[_ E]]; congruence).
  split; [|split].
  - intros q c K. apply (relocate_file root1); auto.
  - intros z c K. rewrite M in K. destruct (below d z) as [r|] eqn:B.
    + apply below_iff in B. subst z. exists (s ++ r). split; [auto|]. unfold relocate. now rewrite below_app.
    + destruct (below s z) as [r|] eqn:B'; [discriminate|]. exists z. split; [auto|]. unfold relocate. now rewrite B'.
  - intros q q' c c' K K'. apply UP in K. apply UP in K'. unfold relocate.
    assert (ND : forall q c, peek root1 q = Some (AFile c) -> forall r, q <> d ++ r).
    { intros q0 c0 K0 r E. subst q0. destruct r as [|z r]; [rewrite app_nil_r in K0; destruct F as [F|(? & ? & F)]; congruence|]. rewrite peek_leaf in K0; [discriminate|discriminate|]. destruct F as [F|(? & ? & F)]; congruence. }
    destruct (below s q) as [r|] eqn:B, (below s q') as [r'|] eqn:B'; intros E.
    + apply app_inv_head in E. subst r'. apply below_iff in B, B'. congruence.
    + exfalso. now apply (ND _ _ K' r).
    + exfalso. now apply (ND _ _ K r').
    + exact E.
Qed.
Theorem move_error : forall root src dest rename e root', (forall p q, device p = device q) ->
  move maxlinks limit device candidates src dest false rename root = (Err e, root') -> grown root root' /\ (e = AlreadyExists -> root' = root).
Proof.
  intros root src dest rename e root' D H. unfold move, bnd in H. destruct (prepare maxlinks limit src dest false rename root) as [[d|e'] root1] eqn:P; pose proof (prepare_noforce _ _ _ _ _ _ P) as (G & _ & _ & A).
  - destruct (os_rename maxlinks device src d root1) as [[| |] root2] eqn:R; [discriminate|now apply rename_same_device in R|]. injection H as <- <-. apply rename_fails in R; [|discriminate]. subst root2. split; [exact G|discriminate].
  - injection H as -> <-. split; [exact G|]. intros ->. now apply A.
Qed.
Theorem move_exists : forall root src dest rename, exists_ root (target root src dest rename) = true ->
  move maxlinks limit device candidates src dest false rename root = (Err AlreadyExists, root) /\ forall follow, rename = false -> copy maxlinks limit src dest false follow root = (Err AlreadyExists, root).
Proof.
  intros root src dest rename X. destruct (prepare maxlinks limit src dest false rename root) as [r root1] eqn:P. pose proof (prepare_noforce _ _ _ _ _ _ P) as (_ & A & _ & _). destruct (A X) as [-> ->].
  split; [unfold move, bnd; now rewrite P|]. intros follow ->. unfold copy, bnd. now rewrite P.
Qed.
End Disk.
