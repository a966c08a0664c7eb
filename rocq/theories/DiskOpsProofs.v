From Verif Require Import Text TextProofs DiskModel DiskSpec DiskProofs.
From Coq Require Import Lia.
Local Open Scope nat_scope.

Lemma peek_look root p t : peek root p = Some t -> exists n, look root p = Some n /\ thing_of n = t.
Proof. unfold peek. destruct (look root p) as [n|]; [|discriminate]. intros [= E]. eauto. Qed.
Lemma peek_none root p : peek root p = None -> look root p = None.
Proof. unfold peek. now destruct (look root p). Qed.
Lemma app_compare {A} (p q a b : list A) : p ++ a = q ++ b -> (exists c, q = p ++ c) \/ (exists c, p = q ++ c).
Proof.
  revert q. induction p as [|x p IH]; intros q E; [left; now exists q|]. destruct q as [|y q]; [right; now exists (x :: p)|]. injection E as -> E. destruct (IH _ E) as [[c ->]|[c ->]]; [left|right]; now exists c.
Qed.
Lemma apart_app p q r : apart p q -> below p (q ++ r) = None.
Proof.
  intros [H K]. apply below_none. intros z E. symmetry in E. destruct (app_compare _ _ _ _ E) as [[c F]|[c F]]; [now apply (proj1 (below_none _ _) H c)|now apply (proj1 (below_none _ _) K c)].
Qed.
Lemma apart_sym p q : apart p q -> apart q p. Proof. intros [A B]. now split. Qed.
Lemma above_apart p a b q : p = a ++ b -> below q p = None -> below q a = None.
Proof. intros -> H. apply below_none. intros r ->. apply (proj1 (below_none _ _) H (r ++ b)). now rewrite <- app_assoc. Qed.
Lemma longer_none (p a b : path) : p = a ++ b -> b <> [] -> below p a = None.
Proof. intros E N. apply below_none. intros r F. apply N. rewrite F in E. rewrite <- app_assoc in E. rewrite <- (app_nil_r p) in E at 1. apply app_inv_head in E. symmetry in E. now apply app_eq_nil in E. Qed.

Section Disk.
Variable maxlinks limit : nat.
Variable device : path -> nat.
Variable candidates : list chars.
Notation real := (real maxlinks). Notation lreal := (lreal maxlinks). Notation stat := (stat maxlinks). Notation lstat := (lstat maxlinks).
Notation exists_ := (exists_ maxlinks). Notation lexists := (lexists maxlinks). Notation isdir := (isdir maxlinks). Notation isfile := (isfile maxlinks). Notation islink := (islink maxlinks).
Notation target := (target maxlinks).

Lemma plain_keep root root1 p : plain root p -> (forall a b, p = a ++ b -> b <> [] -> peek root1 a = peek root a) -> plain root1 p.
Proof. intros [N H] K. split; [exact N|]. intros a b E NB. rewrite (K a b E NB). now apply (H a b). Qed.
Lemma plain_exists_parent root p : plain root p -> exists_ root (parent p) = true.
Proof.
  intros P. unfold DiskModel.exists_, DiskModel.stat, parent. rewrite plain_parent by exact P. destruct P as [N H]. assert (K : peek root (removelast p) = Some ADir) by (apply (H _ [last p []]); [now apply (app_removelast_last [])|discriminate]).
  unfold peek in K. destruct (look root (removelast p)); [reflexivity|discriminate].
Qed.
Lemma plain_dir root p : plain root p -> peek root (removelast p) = Some ADir.
Proof. intros [N H]. apply (H _ [last p []]); [now apply (app_removelast_last [])|discriminate]. Qed.
Lemma plain_edit root p v : plain root p -> exists root', edit root p v = Some root'.
Proof. intros P. apply edit_ok; [now destruct P|now apply plain_dir]. Qed.
Lemma plain_missing root p : plain root p -> peek root p = None -> stat root p = None /\ lstat root p = None.
Proof. intros P H. apply peek_none in H as L. rewrite plain_stat, plain_lstat; auto. intros. rewrite H. discriminate. Qed.
Lemma missing_stat root p : lstat root p = None -> stat root p = None.
Proof.
  intros H. unfold DiskModel.stat. destruct (real root p) as [z|] eqn:E; [|reflexivity]. destruct p as [|y p] using rev_ind; [discriminate H|]. clear IHp. destruct (stat_above _ _ _ _ _ E) as (q & f' & Q & R).
  unfold DiskModel.lstat in H. rewrite lreal_app, Q in H. rewrite resolve_nm, H in R. injection R as <-. exact H.
Qed.
Lemma real_parent_dir root p q v n' : lreal root p = Some q -> edit root q v = Some n' -> q <> [].
Proof. intros _ E. now apply edit_dir in E. Qed.

(* ---- remove ---- *)
Lemma set_removed root s m : s <> [] -> look root s = Some m -> exists root', set_at (Some s) None root = (Ok tt, root') /\ removed root root' s.
Proof.
  intros N L. pose proof (look_plain root s m N L) as P. destruct (plain_edit root s None P) as [root' E]. exists root'. unfold set_at. rewrite E. split; [reflexivity|]. intros q. now rewrite (peek_edit _ _ _ _ q E).
Qed.
Theorem remove_recursive : forall root p s m, 0 < limit -> lreal root p = Some s -> s <> [] -> look root s = Some m -> (forall a t, m <> Link a t) ->
  exists root', remove maxlinks limit true p root = (Ok tt, root') /\ removed root root' s.
Proof.
  intros root p s m LI R N L NL. assert (LS : lstat root p = Some m) by (unfold DiskModel.lstat; now rewrite R). pose proof (lstat_stat _ _ _ _ LS NL) as ST. destruct (set_removed root s m N L) as (root' & E & K). exists root'. split; [|exact K].
  unfold remove. destruct limit as [|li]; [lia|]. cbn [remove_at]. unfold DiskModel.islink, DiskModel.isdir, DiskModel.exists_. rewrite LS, ST. destruct m as [d|l|a t]; cbn [is_dir].
  - unfold os_remove. now rewrite LS, R.
  - unfold os_rmtree. now rewrite LS, R.
  - now destruct (NL a t).
Qed.
Theorem remove_one : forall root p s m, 0 < limit -> lreal root p = Some s -> s <> [] -> look root s = Some m ->
  match m with
  | Dir (_ :: _) => remove maxlinks limit false p root = (Err NotEmpty, root)
  | _ => exists root', remove maxlinks limit false p root = (Ok tt, root') /\ removed root root' s
  end.
Proof.
  intros root p s m LI R N L. assert (LS : lstat root p = Some m) by (unfold DiskModel.lstat; now rewrite R). destruct (set_removed root s m N L) as (root' & E & K).
  unfold remove. destruct limit as [|li]; [lia|]. cbn [remove_at]. unfold DiskModel.islink, DiskModel.isdir, DiskModel.exists_. rewrite LS. destruct m as [d|[|x l]|a t].
  - rewrite (lstat_stat _ _ _ _ LS) by discriminate. cbn [is_dir]. exists root'. split; [|exact K]. unfold os_remove. now rewrite LS, R.
  - rewrite (lstat_stat _ _ _ _ LS) by discriminate. cbn [is_dir]. exists root'. split; [|exact K]. unfold os_rmdir. now rewrite LS, R.
  - rewrite (lstat_stat _ _ _ _ LS) by discriminate. cbn [is_dir]. unfold os_rmdir. now rewrite LS.
  - exists root'. split; [|exact K]. unfold os_remove. now rewrite LS, R.
Qed.
Theorem remove_missing : forall root p recursive, 0 < limit -> lexists root p = false -> remove maxlinks limit recursive p root = (Ok tt, root).
Proof.
  intros root p rc LI H. unfold DiskModel.lexists in H. destruct (lstat root p) eqn:LS; [discriminate|]. pose proof (missing_stat _ _ LS) as ST. unfold remove. destruct limit as [|li]; [lia|]. cbn [remove_at].
  unfold DiskModel.islink, DiskModel.isdir, DiskModel.exists_. now rewrite LS, ST.
Qed.
(* links that lead to each other for ever *)
Theorem remove_loop : forall root (loop : path -> Prop), (forall q, loop q -> exists d, islink root q = true /\ linkdest maxlinks root q = Some d /\ loop d) ->
  forall p, loop p -> remove maxlinks limit true p root = (Err RuntimeError, root).
Proof.
  intros root loop H. unfold remove. induction limit as [|li IH]; intros p LP; [reflexivity|]. cbn [remove_at]. destruct (H p LP) as (d & I & D & LD). rewrite I, D, (IH d LD). reflexivity.
Qed.
(* a link together with what it points to *)
Theorem remove_link : forall root p abs t d m, 1 < limit -> link_at root p abs t -> linkdest maxlinks root p = Some d -> plain root d -> look root d = Some m -> (forall a t, m <> Link a t) -> below d p = None ->
  exists root', remove maxlinks limit true p root = (Ok tt, root') /\ forall q, peek root' q = match below d q, below p q with None, None => peek root q | _, _ => None end.
Proof.
  intros root p abs t d m LI [P K] D PD LD NL B. destruct limit as [|li] eqn:LE; [lia|]. 
  assert (DS : exists root1, remove_at maxlinks li true d root = (Ok tt, root1) /\ removed root root1 d).
  { pose proof (plain_lstat maxlinks root d PD) as LS. rewrite LD in LS. pose proof (lstat_stat _ _ _ _ LS NL) as ST. destruct (set_removed root d m (proj1 PD) LD) as (root1 & E & R). exists root1. split; [|exact R].
    destruct li as [|li']; [lia|]. cbn [remove_at]. unfold DiskModel.islink, DiskModel.isdir, DiskModel.exists_. rewrite LS, ST. destruct m as [c|l|a tt']; cbn [is_dir].
    - unfold os_remove. now rewrite LS, plain_lreal.
    - unfold os_rmtree. now rewrite LS, plain_lreal.
    - now destruct (NL a tt'). }
  destruct DS as (root1 & E1 & R1). destruct (peek_look _ _ _ K) as (n & LN & TN).
  assert (P1 : plain root1 p). { apply (plain_keep root); [exact P|]. intros a b E NB. rewrite R1. now rewrite (above_apart _ _ _ _ E B). }
  assert (K1 : peek root1 p = Some (ALink abs t)) by (rewrite R1, B; exact K). destruct (peek_look _ _ _ K1) as (n1 & LN1 & TN1).
  destruct (set_removed root1 p n1 (proj1 P1) LN1) as (root2 & E2 & R2). exists root2. split.
  - unfold remove. cbn [remove_at]. assert (IL : islink root p = true) by (unfold DiskModel.islink; rewrite plain_lstat, LN by exact P; destruct n; try discriminate TN; reflexivity). rewrite IL, D, E1.
    unfold os_remove. rewrite plain_lstat, LN1 by exact P1. destruct n1; try discriminate TN1. now rewrite plain_lreal.
  - intros q. rewrite R2, R1. destruct (below d q), (below p q); reflexivity.
Qed.

(* ---- rename ---- *)
Lemma rename_runs root s d : device (removelast s) = device (removelast d) -> plain root s -> plain root d -> peek root s <> None -> peek root d = None -> apart s d ->
  exists root', os_rename maxlinks device s d root = (Renamed, root') /\ moved root root' s d.
Proof.
  intros DV PS PD S D A. unfold os_rename. rewrite !plain_lreal by assumption. destruct (look root s) as [n|] eqn:L; [|unfold peek in S; rewrite L in S; congruence].
  rewrite DV, Nat.eqb_refl. cbn [negb]. unfold same_path, starts_with. destruct A as [A1 A2]. rewrite A1. rewrite (peek_none _ _ D).
  destruct (plain_edit root s None PS) as [r1 E1]. rewrite E1.
  assert (PD1 : plain r1 d). { apply (plain_keep root); [exact PD|]. intros a b E NB. rewrite (peek_edit _ _ _ _ a E1). now rewrite (above_apart _ _ _ _ E A1). }
  destruct (plain_edit r1 d (Some n) PD1) as [r2 E2]. rewrite E2. exists r2. split; [reflexivity|]. intros q. rewrite (peek_edit _ _ _ _ q E2). destruct (below d q) as [r|]; [symmetry; now apply peek_app|]. now rewrite (peek_edit _ _ _ _ q E1).
Qed.
Lemma prepare_free_dest root src dest force rename : plain root (target root src dest rename) -> peek root (target root src dest rename) = None ->
  prepare maxlinks limit src dest force rename root = (Ok (target root src dest rename), root).
Proof.
  intros P N. unfold prepare. fold (target root src dest rename). set (d := target root src dest rename) in *. clearbody d. destruct (plain_missing _ _ P N) as [ST _].
  unfold bnd, ret, DiskModel.exists_ at 1. rewrite ST. now rewrite plain_exists_parent.
Qed.
Theorem move_runs : forall root src dest force rename, (forall p q, device p = device q) -> let d := target root src dest rename in
  plain root src -> peek root src <> None -> plain root d -> peek root d = None -> apart src d ->
  exists root', move maxlinks limit device candidates src dest force rename root = (Ok d, root') /\ moved root root' src d.
Proof.
  intros root src dest force rename DV d PS S PD D A. unfold move, bnd. rewrite (prepare_free_dest _ _ _ _ _ PD D). fold d. destruct (rename_runs root src d (DV _ _) PS PD S D A) as (root' & E & M). rewrite E. eauto.
Qed.
Lemma moved_over root root1 root2 s d : removed root root1 d -> moved root1 root2 s d -> apart s d -> moved root root2 s d.
Proof.
  intros R M A q. rewrite M. destruct (below d q) as [r|] eqn:B.
  - rewrite R. now rewrite (apart_app d s r (apart_sym _ _ A)).
  - destruct (below s q); [reflexivity|]. now rewrite R, B.
Qed.
Lemma prepare_force root src dest rename : 0 < limit -> let d := target root src dest rename in plain root d -> peek root d <> None -> (forall a t, peek root d <> Some (ALink a t)) ->
  exists root1, prepare maxlinks limit src dest true rename root = (Ok d, root1) /\ removed root root1 d /\ plain root1 d /\ peek root1 d = None.
Proof.
  intros LI d PD D NL. destruct (look root d) as [m|] eqn:L; [|unfold peek in D; rewrite L in D; congruence].
  assert (NM : forall a t, m <> Link a t) by (intros a t ->; apply (NL a t); unfold peek; now rewrite L).
  destruct (remove_recursive root d d m LI (plain_lreal maxlinks _ _ PD) (proj1 PD) L NM) as (root1 & E & R). exists root1.
  assert (P1 : plain root1 d). { apply (plain_keep root); [exact PD|]. intros a b F NB. rewrite R. now rewrite (longer_none _ _ _ F NB). }
  split; [|split; [exact R|split; [exact P1|rewrite R; now rewrite below_refl]]].
  unfold prepare. fold (target root src dest rename). fold d. unfold bnd, ret, DiskModel.exists_ at 1. rewrite plain_stat, L by assumption. rewrite E. cbv beta iota. now rewrite plain_exists_parent.
Qed.
Theorem move_force : forall root src dest rename, 0 < limit -> (forall p q, device p = device q) -> let d := target root src dest rename in
  plain root src -> peek root src <> None -> plain root d -> peek root d <> None -> (forall a t, peek root d <> Some (ALink a t)) -> apart src d ->
  exists root', move maxlinks limit device candidates src dest true rename root = (Ok d, root') /\ moved root root' src d.
Proof.
  intros root src dest rename LI DV d PS S PD D NL A. destruct (prepare_force root src dest rename LI PD D NL) as (root1 & E & R & PD1 & D1). fold d in E, R, PD1, D1.
  assert (PS1 : plain root1 src). { apply (plain_keep root); [exact PS|]. intros a b F NB. rewrite R. now rewrite (above_apart _ _ _ _ F (proj2 A)). }
  assert (S1 : peek root1 src <> None) by (rewrite R, (proj2 A); exact S).
  destruct (rename_runs root1 src d (DV _ _) PS1 PD1 S1 D1 A) as (root2 & E2 & M). exists root2. unfold move, bnd. rewrite E, E2. split; [reflexivity|]. now apply (moved_over _ _ _ _ _ R M).
Qed.

(* ---- copy ---- *)
Lemma resolve_not_link root : (forall a t, peek root [] <> Some (ALink a t)) -> forall f t d q, (forall a b, d = a ++ b -> forall ab tg, peek root a <> Some (ALink ab tg)) -> resolve f root d t = Some q -> forall ab tg, peek root q <> Some (ALink ab tg).
Proof.
  intros R0. induction f as [f IHf] using lt_wf_ind. induction t as [|[|n] t IH]; intros d q I E.
  - rewrite resolve_nil in E. apply some_inj in E. subst q. apply (I d []). now rewrite app_nil_r.
  - rewrite resolve_up in E. revert E. apply IH. intros a b F. destruct d as [|x d]; [apply (I a b); exact F|]. apply (I a (b ++ [last (x :: d) []])). rewrite app_assoc, <- F. apply (app_removelast_last []). discriminate.
  - rewrite resolve_nm in E. destruct (look root (d ++ [n])) as [m|] eqn:L.
    + assert (K : (forall a tg, m <> Link a tg) -> resolve f root (d ++ [n]) t = Some q -> forall ab tg, peek root q <> Some (ALink ab tg)).
      { intros NM. apply IH. intros a b F. destruct b as [|y b] using rev_ind.
        - rewrite app_nil_r in F. subst a. intros ab tg P. unfold peek in P. rewrite L in P. injection P as P. destruct m; try discriminate P. now apply (NM abs t0).
        - clear IHb. rewrite app_assoc in F. apply app_inj_tail in F as [F _]. now apply (I a b). }
      destruct m as [c|l|a tg]; [apply K; [discriminate|exact E]|apply K; [discriminate|exact E]|]. destruct f as [|f']; [discriminate|].
      revert E. apply (IHf f' (Nat.lt_succ_diag_r _)). destruct a; [|exact I]. intros a b F. symmetry in F. apply app_eq_nil in F as [-> _]. exact R0.
    + destruct t; [|discriminate]. apply some_inj in E. subst q. unfold peek. rewrite L. discriminate.
Qed.
Lemma stat_not_link root p m : is_dir (Some root) = true -> stat root p = Some m -> forall a t, m <> Link a t.
Proof.
  intros RD S. assert (R0 : forall a t, peek root [] <> Some (ALink a t)) by (intros a t P; destruct root; discriminate). unfold DiskModel.stat in S. destruct (real root p) as [z|] eqn:E; [|discriminate].
  intros a t ->. unfold DiskModel.real in E. refine (resolve_not_link root R0 _ _ [] z _ E a t _); [intros a' b F; symmetry in F; apply app_eq_nil in F as [-> _]; exact R0|].
  unfold peek. now rewrite S.
Qed.

(* ---- copy ---- *)
Lemma makedirs_plain root rest : forall above, rest <> [] -> plain root (above ++ rest) -> peek root (above ++ rest) = None ->
  exists root', os_makedirs_from maxlinks above rest root = (Ok tt, root') /\ edit root (above ++ rest) (Some (Dir [])) = Some root'.
Proof.
  induction rest as [|x rest IH]; intros above N P K; [congruence|]. destruct rest as [|y rest].
  - cbn [os_makedirs_from]. unfold os_mkdir, DiskModel.lexists. destruct (plain_missing _ _ P K) as [_ LS]. rewrite LS. unfold set_at. rewrite plain_lreal by exact P. destruct (plain_edit root _ (Some (Dir [])) P) as [root' E]. rewrite E. eauto.
  - change (x :: y :: rest) with ([x] ++ (y :: rest)) in P, K |- *. rewrite app_assoc in P, K. destruct (IH (above ++ [x])) as (root' & E1 & E2); [discriminate|exact P|exact K|]. exists root'. split; [|now rewrite app_assoc].
    cbn [app os_makedirs_from]. assert (D : peek root (above ++ [x]) = Some ADir) by (apply (proj2 P _ (y :: rest)); [reflexivity|discriminate]).
    assert (EX : exists_ root (above ++ [x]) = true).
    { unfold DiskModel.exists_. rewrite plain_stat. - unfold peek in D. destruct (look root (above ++ [x])); [reflexivity|discriminate].
      - split; [now destruct above|]. intros a b F NB. apply (proj2 P a (b ++ y :: rest)); [now rewrite F, <- app_assoc|now destruct b].
      - intros. rewrite D. discriminate. }
    rewrite EX. exact E1.
Qed.
Lemma copytree_runs root src s l d : real root src = Some s -> look root s = Some (Dir l) -> plain root d -> peek root d = None -> below s d = None ->
  exists root', os_copytree maxlinks src d root = (Ok tt, root') /\ copied root root' s d.
Proof.
  intros R L P K B. unfold os_copytree, os_makedirs. rewrite R, L. destruct (makedirs_plain root d [] (proj1 P) P K) as (root1 & E & F). cbn [app] in F. rewrite E.
  assert (P1 : plain root1 d). { apply (plain_keep root); [exact P|]. intros a b G NB. rewrite (peek_edit _ _ _ _ a F). now rewrite (longer_none _ _ _ G NB). }
  rewrite plain_lreal by exact P1. unfold starts_with. rewrite B. unfold set_at. destruct (plain_edit root1 d (Some (Dir l)) P1) as [root2 E2]. rewrite E2. exists root2. split; [reflexivity|].
  intros q. rewrite (peek_edit _ _ _ _ q E2). destruct (below d q) as [r|] eqn:BQ; [now rewrite (peek_app _ _ _ _ L)|]. rewrite (peek_edit _ _ _ _ q F). now rewrite BQ.
Qed.
Lemma copyfile_runs root src s c d : real root src = Some s -> look root s = Some (File c) -> plain root d -> peek root d = None ->
  exists root', os_copy maxlinks src d root = (Ok tt, root') /\ copied root root' s d.
Proof.
  intros R L P K. unfold os_copy, DiskModel.stat. rewrite R, L. destruct (plain_missing _ _ P K) as [ST _]. unfold DiskModel.stat in ST. rewrite ST.
  assert (RD : real root d = Some d) by (apply plain_real; [exact P|rewrite K; discriminate]). rewrite RD. unfold set_at. destruct (plain_edit root d (Some (File c)) P) as [root2 E2]. rewrite E2. exists root2. split; [reflexivity|].
  intros q. rewrite (peek_edit _ _ _ _ q E2). destruct (below d q) as [r|]; [symmetry; now rewrite (peek_app _ _ _ _ L)|reflexivity].
Qed.
Lemma copy_after root src s d follow (act : action path) root1 : act root = (Ok d, root1) -> is_dir (Some root1) = true -> real root1 src = Some s -> peek root1 s <> None -> (islink root1 src = true -> follow = true) -> plain root1 d -> peek root1 d = None -> below s d = None ->
  exists root', bnd act (fun dest root => if islink root src && negb follow then (Err TypeError, root) else if isdir root src then bnd (os_copytree maxlinks src dest) (fun _ => ret dest) root else bnd (os_copy maxlinks src dest) (fun _ => ret dest) root) root = (Ok d, root') /\ copied root1 root' s d.
Proof.
  intros A RD R S F P K B. unfold bnd. rewrite A. assert (G : islink root1 src && negb follow = false) by (destruct (islink root1 src); [now rewrite F|reflexivity]). rewrite G. 
  destruct (look root1 s) as [m|] eqn:L; [|unfold peek in S; rewrite L in S; congruence]. assert (ST : stat root1 src = Some m) by (unfold DiskModel.stat; now rewrite R). pose proof (stat_not_link _ _ _ RD ST) as NL. unfold DiskModel.isdir. rewrite ST. destruct m as [c|l|a t]; cbn [is_dir].
  - destruct (copyfile_runs root1 src s c d R L P K) as (root' & E & C). rewrite E. now exists root'.
  - destruct (copytree_runs root1 src s l d R L P K B) as (root' & E & C). rewrite E. now exists root'.
  - now destruct (NL a t).
Qed.
Theorem copy_runs : forall root src dest force follow s, let d := target root src dest false in is_dir (Some root) = true -> real root src = Some s -> peek root s <> None -> (islink root src = true -> follow = true) -> plain root d -> peek root d = None -> below s d = None ->
  exists root', copy maxlinks limit src dest force follow root = (Ok d, root') /\ copied root root' s d.
Proof. intros root src dest force follow s d RD R S F P K B. unfold copy. eapply copy_after; eauto. now apply prepare_free_dest. Qed.
Theorem copy_force : forall root src dest follow, 0 < limit -> let d := target root src dest false in is_dir (Some root) = true -> plain root src -> peek root src <> None -> (forall a t, peek root src <> Some (ALink a t)) ->
  plain root d -> peek root d <> None -> (forall a t, peek root d <> Some (ALink a t)) -> apart src d ->
  exists root', copy maxlinks limit src dest true follow root = (Ok d, root') /\ copied root root' src d.
Proof.
  intros root src dest follow LI d RD PS S NS PD D ND A. destruct (prepare_force root src dest false LI PD D ND) as (root1 & E & R & PD1 & D1). fold d in E, R, PD1, D1.
  assert (PS1 : plain root1 src). { apply (plain_keep root); [exact PS|]. intros a b F NB. rewrite R. now rewrite (above_apart _ _ _ _ F (proj2 A)). }
  assert (Q1 : peek root1 src = peek root src) by (rewrite R; now rewrite (proj2 A)).
  assert (RD1 : is_dir (Some root1) = true). { assert (H : peek root1 [] = Some ADir) by (apply (proj2 PD1 [] d); [reflexivity|apply PD1]). unfold peek in H. destruct root1; try discriminate H. reflexivity. }
  assert (RS : real root1 src = Some src) by (apply plain_real; [exact PS1|intros; rewrite Q1; apply NS]).
  assert (IL : islink root1 src = true -> follow = true). { unfold DiskModel.islink. rewrite plain_lstat by exact PS1. destruct (look root1 src) as [m|] eqn:L; [|discriminate]. destruct m as [| |a t]; try discriminate. intros _. exfalso. apply (NS a t). rewrite <- Q1. unfold peek. now rewrite L. }
  destruct (copy_after root src src d follow (prepare maxlinks limit src dest true false) root1 E RD1 RS) as (root2 & E2 & C); try assumption; [now rewrite Q1|apply A|]. exists root2. split; [exact E2|].
  intros q. rewrite C. destruct (below d q) as [r|] eqn:B; rewrite R; [now rewrite (apart_app d src r (apart_sym _ _ A))|now rewrite B].
Qed.
(* copying a link without following it *)
Theorem copy_link : forall root src dest force, islink root src = true -> plain root (target root src dest false) -> peek root (target root src dest false) = None ->
  copy maxlinks limit src dest force false root = (Err TypeError, root).
Proof. intros root src dest force I P K. unfold copy, bnd. rewrite prepare_free_dest by assumption. now rewrite I. Qed.
Theorem copy_link_force : forall root src dest, 0 < limit -> let d := target root src dest false in plain root src -> islink root src = true -> plain root d -> peek root d <> None -> (forall a t, peek root d <> Some (ALink a t)) -> apart src d ->
  exists root', copy maxlinks limit src dest true false root = (Err TypeError, root') /\ removed root root' d.
Proof.
  intros root src dest LI d PS I PD D ND A. destruct (prepare_force root src dest false LI PD D ND) as (root1 & E & R & PD1 & D1). fold d in E, R, PD1, D1. exists root1. split; [|exact R]. unfold copy, bnd. rewrite E.
  assert (PS1 : plain root1 src). { apply (plain_keep root); [exact PS|]. intros a b F NB. rewrite R. now rewrite (above_apart _ _ _ _ F (proj2 A)). }
  assert (Q1 : peek root1 src = peek root src) by (rewrite R; now rewrite (proj2 A)).
  assert (I1 : islink root1 src = true). { unfold DiskModel.islink in I |- *. rewrite plain_lstat in I |- * by assumption. unfold peek in Q1. destruct (look root src) as [[| |]|]; try discriminate I. destruct (look root1 src) as [[| |]|]; try discriminate Q1. reflexivity. }
  now rewrite I1.
Qed.
(* whatever happens, a copy that may not replace anything changes nothing that was there *)
Lemma set_adds root p v r root' : set_at p (Some v) root = (r, root') -> (forall q, p = Some q -> peek root q = None) -> forall q t, peek root q = Some t -> peek root' q = Some t.
Proof.
  intros E H q t Q. unfold set_at in E. destruct p as [p|]; [|injection E as _ <-; exact Q]. destruct (edit root p (Some v)) as [n|] eqn:D; injection E as _ <-; [|exact Q]. rewrite (peek_edit _ _ _ _ q D). destruct (below p q) as [z|] eqn:B; [|exact Q].
  apply below_iff in B. subst q. rewrite (peek_none_app _ _ _ (H _ eq_refl)) in Q. discriminate.
Qed.
Lemma prepare_absent root src dest rename d root1 : prepare maxlinks limit src dest false rename root = (Ok d, root1) -> stat root1 d = None.
Proof.
  intros H. pose proof (prepare_noforce _ _ _ _ _ _ _ _ H) as (_ & _ & T & _). destruct (T _ eq_refl) as [-> X]. clear T. revert H X. unfold prepare. fold (target root src dest rename). set (d := target root src dest rename). clearbody d.
  unfold bnd, fail, ret. intros H X. rewrite X in H. cbv beta iota in H. assert (OLD : root1 = root -> stat root1 d = None) by (intros ->; unfold DiskModel.exists_ in X; now destruct (stat root d)).
  destruct (exists_ root (parent d)) eqn:P; [injection H as <-; now apply OLD|].
  destruct (mkdir maxlinks true true (parent d) root) as [[u|e] r1] eqn:M; [|discriminate]. injection H as <-. unfold mkdir in M. rewrite P in M.
  destruct d as [|x0 d0]; [cbn in P; unfold DiskModel.exists_, DiskModel.stat, DiskModel.real in P; cbn [map] in P; rewrite resolve_nil in P; discriminate P|]. set (d := x0 :: d0) in *.
  assert (PN : parent d <> []) by (intros E; rewrite E in P; unfold DiskModel.exists_, DiskModel.stat, DiskModel.real in P; cbn [map] in P; rewrite resolve_nil in P; discriminate P).
  destruct (os_makedirs maxlinks (parent d) root) as [[v|e] r2] eqn:O.
  - injection M as _ <-. apply dirs_made in O; [|exact PN]. cbn [app] in O. assert (E : d = parent d ++ [last d []]) by (apply (app_removelast_last []); discriminate). rewrite E. now apply fresh_stat.
  - destruct e; try discriminate M. injection M as _ <-. apply dirs_unchanged in O. now apply OLD.
Qed.
Lemma mkdir1_l root p u root' : os_mkdir maxlinks p root = (Ok u, root') -> lstat root' p = Some (Dir []).
Proof.
  intros H. pose proof (mkdir1_grown _ _ _ _ _ H) as G. unfold os_mkdir, set_at in H. destruct (lexists root p) eqn:L; [discriminate|]. destruct (lreal root p) as [q|] eqn:E; [|discriminate].
  destruct (edit root q (Some (Dir []))) as [n'|] eqn:D; [|discriminate]. injection H as _ <-. unfold DiskModel.lstat. rewrite (lreal_grown _ _ _ _ _ G E). now apply look_edit in D.
Qed.
Lemma dirs_made_l rest : forall above root u root', rest <> [] -> os_makedirs_from maxlinks above rest root = (Ok u, root') -> lstat root' (above ++ rest) = Some (Dir []).
Proof.
  induction rest as [|x rest IH]; intros above root u root' N K; [congruence|]. cbn [os_makedirs_from] in K. destruct rest as [|y rest]; [now apply mkdir1_l in K|].
  assert (S : forall root, os_makedirs_from maxlinks (above ++ [x]) (y :: rest) root = (Ok u, root') -> lstat root' (above ++ x :: y :: rest) = Some (Dir [])).
  { intros r1 H. apply IH in H; [|discriminate]. now rewrite <- app_assoc in H. }
  destruct (exists_ root (above ++ [x])); [now apply S in K|]. destruct (os_mkdir maxlinks (above ++ [x]) root) as [[v|[]] r1] eqn:E; try discriminate K; now apply S in K.
Qed.
Theorem copy_keeps : forall root src dest follow r root', copy maxlinks limit src dest false follow root = (r, root') ->
  forall q t, peek root q = Some t -> peek root' q = Some t.
Proof.
  intros root src dest follow r root' H q t Q. unfold copy, bnd in H. destruct (prepare maxlinks limit src dest false false root) as [[d|e] root1] eqn:P; [|injection H as _ <-; apply prepare_noforce in P as (G & _); now apply (grown_keep root)].
  pose proof (prepare_noforce _ _ _ _ _ _ _ _ P) as (G & _). apply prepare_absent in P as ST. apply (grown_keep _ _ _ _ G) in Q. clear P G root.
  destruct (islink root1 src && negb follow); [injection H as _ <-; exact Q|]. destruct (isdir root1 src).
  - destruct (os_copytree maxlinks src d root1) as [c root2] eqn:C. assert (K : peek root2 q = Some t); [|destruct c; injection H as _ <-; exact K]. clear H. unfold os_copytree in C. destruct (real root1 src) as [s|]; [|injection C as _ <-; exact Q].
    destruct (look root1 s) as [[|l|]|]; try (injection C as _ <-; exact Q). destruct (os_makedirs maxlinks d root1) as [[u|e] root3] eqn:O; apply makedirs_grown in O as G; apply (grown_keep _ _ _ _ G) in Q as Q3; [|injection C as _ <-; exact Q3].
    destruct (lreal root3 d) as [z|] eqn:LR; [|injection C as _ <-; exact Q3]. destruct (starts_with s z); [injection C as _ <-; exact Q|].
    assert (N : d <> []). { intros ->. unfold DiskModel.stat, DiskModel.real in ST. cbn [map] in ST. rewrite resolve_nil in ST. discriminate. }
    apply dirs_made_l in O; [|exact N]. cbn [app] in O. unfold DiskModel.lstat in O. rewrite LR in O. unfold set_at in C. destruct (edit root3 z (Some (Dir l))) as [n|] eqn:E; injection C as _ <-; [|exact Q3].
    rewrite (peek_edit _ _ _ _ q E). destruct (below z q) as [b|] eqn:B; [|exact Q3]. apply below_iff in B. subst q. rewrite (peek_app _ _ _ _ O) in Q3. destruct b; [exact Q3|discriminate].
  - destruct (os_copy maxlinks src d root1) as [c root2] eqn:C. assert (K : peek root2 q = Some t); [|destruct c; injection H as _ <-; exact K]. clear H. unfold os_copy in C. destruct (stat root1 src) as [[c'| |]|]; try (injection C as _ <-; exact Q). rewrite ST in C.
    refine (set_adds _ _ _ _ _ C _ q t Q). intros z Z. unfold DiskModel.stat in ST. rewrite Z in ST. unfold peek. now rewrite ST.
Qed.

(* ---- moving to another file system ---- *)
Lemma apart_siblings dir (a b : chars) : a <> b -> apart (dir ++ [a]) (dir ++ [b]).
Proof.
  intros N. split; apply below_none; intros r E; rewrite <- app_assoc in E; apply app_inv_head in E; injection E; congruence.
Qed.
Lemma plain_sibling root d c : plain root d -> plain root (parent d ++ [c]).
Proof.
  intros P. split; [now destruct (parent d)|]. intros a b E NB. destruct b as [|y b] using rev_ind; [congruence|]. clear IHb. rewrite app_assoc in E. apply app_inj_tail in E as [E _]. apply (proj2 P a (b ++ [last d []])); [|now destruct b].
  rewrite app_assoc, <- E. apply (app_removelast_last []). apply P.
Qed.
Theorem move_across : forall root src dest rename c cs, 0 < limit -> is_dir (Some root) = true -> let d := target root src dest rename in let tmp := parent d ++ [last d [] ++ c] in
  device (removelast src) <> device (parent d) -> candidates = c :: cs -> c <> [] ->
  plain root src -> peek root src <> None -> (forall a t, peek root src <> Some (ALink a t)) -> plain root d -> peek root d = None -> apart src d -> peek root tmp = None -> apart src tmp ->
  exists root', move maxlinks limit device candidates src dest false rename root = (Ok d, root') /\ moved root root' src d.
Proof.
  intros root src dest rename c cs LI RD d tmp DV CS NC PS S NS PD D A T AT.
  assert (DE : d = parent d ++ [last d []]) by (apply (app_removelast_last []); apply PD).
  assert (NT : last d [] <> last d [] ++ c). { intros E. apply NC. rewrite <- (app_nil_r (last d [])) in E at 1. apply app_inv_head in E. now symmetry. }
  assert (PT : plain root tmp) by now apply plain_sibling.
  assert (AD : apart tmp d). { rewrite DE. unfold tmp. apply apart_siblings. now apply not_eq_sym. }
  assert (RS : real root src = Some src) by now apply plain_real.
  assert (IL : islink root src = false). { unfold DiskModel.islink. rewrite plain_lstat by exact PS. destruct (look root src) as [[| |a t]|] eqn:L; try reflexivity. exfalso. apply (NS a t). unfold peek. now rewrite L. }
  destruct (plain_missing _ _ PT T) as [STT _].
  assert (TT : target root src tmp false = tmp) by (unfold DiskSpec.target, DiskModel.isdir; now rewrite STT).
  (* the copy *)
  destruct (copy_runs root src tmp true true src RD RS S (fun _ => eq_refl)) as (root1 & E1 & C1); rewrite ?TT; [exact PT|exact T|apply AT|]. rewrite TT in E1, C1.
  assert (KEEP : forall q, below tmp q = None -> peek root1 q = peek root q) by (intros q B; rewrite C1; now rewrite B).
  (* renaming it *)
  assert (PD1 : plain root1 d) by (apply (plain_keep root); [exact PD|]; intros a b F NB; apply KEEP; exact (above_apart _ _ _ _ F (proj1 AD))).
  assert (PT1 : plain root1 tmp) by (apply (plain_keep root); [exact PT|]; intros a b F NB; apply KEEP; exact (longer_none _ _ _ F NB)).
  assert (D1 : peek root1 d = None) by (rewrite KEEP; [exact D|apply AD]).
  assert (T1 : peek root1 tmp <> None) by (rewrite C1, below_refl, app_nil_r; exact S).
  assert (DT : device (removelast tmp) = device (removelast d)) by (unfold tmp; now rewrite removelast_last).
  destruct (rename_runs root1 tmp d DT PT1 PD1 T1 D1 AD) as (root2 & E2 & M2).
  (* removing the source *)
  assert (SRC2 : forall q, below d q = None -> below tmp q = None -> peek root2 q = peek root q) by (intros q B1 B2; rewrite M2, B1, B2; now apply KEEP).
  assert (PS2 : plain root2 src) by (apply (plain_keep root); [exact PS|]; intros a b F NB; apply SRC2; [exact (above_apart _ _ _ _ F (proj2 A))|exact (above_apart _ _ _ _ F (proj2 AT))]).
  assert (S2 : peek root2 src = peek root src) by (apply SRC2; [apply A|apply AT]).
  destruct (look root2 src) as [m|] eqn:L2; [|unfold peek in S2 at 1; rewrite L2 in S2; congruence].
  assert (NM : forall a t, m <> Link a t) by (intros a t ->; apply (NS a t); rewrite <- S2; unfold peek; now rewrite L2).
  destruct (remove_recursive root2 src src m LI (plain_lreal maxlinks _ _ PS2) (proj1 PS2) L2 NM) as (root3 & E3 & R3).
  exists root3. split.
  - unfold move, bnd. rewrite (prepare_free_dest _ _ _ _ _ PD D). fold d.
    assert (X : os_rename maxlinks device src d root = (CrossDevice, root)). { unfold os_rename. rewrite !plain_lreal by assumption. destruct (look root src) eqn:L; [|unfold peek in S; rewrite L in S; congruence]. unfold parent in DV. apply Nat.eqb_neq in DV. now rewrite DV. }
    rewrite X. unfold copyrenamedel, bnd. rewrite CS. cbn [randomnode]. fold tmp. unfold DiskModel.exists_. rewrite STT. rewrite E1.
    unfold rename_tmp, bnd. assert (TD : target root1 tmp d true = d) by (unfold DiskSpec.target; now rewrite Bool.andb_false_r).
    rewrite prepare_free_dest; rewrite ?TD; [|exact PD1|exact D1]. rewrite E2, E3. reflexivity.
  - intros q. rewrite R3. destruct (below src q) as [r|] eqn:BS.
    + destruct (below d q) as [r'|] eqn:BD; [|reflexivity]. exfalso. apply below_iff in BS, BD. subst q. pose proof (apart_app src d r' A) as K. rewrite <- BD, below_app in K. discriminate.
    + rewrite M2. destruct (below d q) as [r|] eqn:BD; [rewrite C1, below_app; reflexivity|]. destruct (below tmp q) as [r|] eqn:BT; [|now apply KEEP]. apply below_iff in BT. subst q. symmetry. now apply peek_none_app.
Qed.

(* ---- temporary nodes ---- *)
Theorem temp_renamed : forall root tmp name force rm, (forall p q, device p = device q) -> plain root tmp -> peek root tmp <> None -> (forall a t, peek root tmp <> Some (ALink a t)) -> plain root name -> peek root name = None -> apart tmp name ->
  exists root', end_temp maxlinks limit device candidates tmp (Some name) force rm root = (Ok tt, root') /\ moved root root' tmp name.
Proof.
  intros root tmp name force rm DV PT T NT PN N A. assert (TD : target root tmp name true = name) by (unfold DiskSpec.target; now rewrite Bool.andb_false_r).
  destruct (move_runs root tmp name force true DV) as (root' & E & M); rewrite ?TD; try assumption. rewrite TD in E, M. exists root'. split; [|exact M]. unfold end_temp, renameremove, bnd. rewrite E. unfold DiskModel.exists_. rewrite plain_stat by assumption.
  unfold peek in T. destruct (look root tmp); [reflexivity|congruence].
Qed.
Theorem temp_dropped : forall root tmp name rm, 0 < limit -> plain root tmp -> peek root tmp <> None -> (forall a t, peek root tmp <> Some (ALink a t)) -> exists_ root name = true ->
  exists root', end_temp maxlinks limit device candidates tmp (Some name) false rm root = (Ok tt, root') /\ removed root root' tmp.
Proof.
  intros root tmp name rm LI PT T NT EX. destruct (look root tmp) as [m|] eqn:L; [|unfold peek in T; rewrite L in T; congruence]. assert (NM : forall a t, m <> Link a t) by (intros a t ->; apply (NT a t); unfold peek; now rewrite L).
  destruct (remove_recursive root tmp tmp m LI (plain_lreal maxlinks _ _ PT) (proj1 PT) L NM) as (root' & E & R). exists root'. split; [|exact R]. unfold end_temp, renameremove, bnd. unfold DiskModel.exists_ at 1. rewrite plain_stat, L by assumption.
  assert (TD : target root tmp name true = name) by (unfold DiskSpec.target; now rewrite Bool.andb_false_r). destruct (move maxlinks limit device candidates tmp name false true root) as [r r1] eqn:MV. pose proof (move_exists maxlinks limit device candidates root tmp name true) as X. rewrite TD in X. specialize (X EX). apply proj1 in X. rewrite X in MV. injection MV as <- <-. now rewrite E.
Qed.
Theorem temp_replaces : forall root tmp name rm, 0 < limit -> (forall p q, device p = device q) -> plain root tmp -> peek root tmp <> None -> (forall a t, peek root tmp <> Some (ALink a t)) -> plain root name -> peek root name <> None -> (forall a t, peek root name <> Some (ALink a t)) -> apart tmp name ->
  exists root', end_temp maxlinks limit device candidates tmp (Some name) true rm root = (Ok tt, root') /\ moved root root' tmp name.
Proof.
  intros root tmp name rm LI DV PT T NT PN N NN A. assert (TD : target root tmp name true = name) by (unfold DiskSpec.target; now rewrite Bool.andb_false_r).
  destruct (move_force root tmp name true LI DV) as (root' & E & M); rewrite ?TD; try assumption. rewrite TD in E, M. exists root'. split; [|exact M]. unfold end_temp, renameremove, bnd. rewrite E. unfold DiskModel.exists_. rewrite plain_stat by assumption.
  unfold peek in T. destruct (look root tmp); [reflexivity|congruence].
Qed.
Theorem temp_nothing : forall root tmp name force rm, exists_ root tmp = false -> end_temp maxlinks limit device candidates tmp (Some name) force rm root = (Ok tt, root).
Proof. intros root tmp name force rm E. unfold end_temp. now rewrite E. Qed.
Theorem temp_nameless : forall root tmp m, 0 < limit -> plain root tmp -> look root tmp = Some m -> (forall a t, m <> Link a t) ->
  (exists root', end_temp maxlinks limit device candidates tmp None false true root = (Ok tt, root') /\ removed root root' tmp) /\
  end_temp maxlinks limit device candidates tmp None false false root = (Ok tt, root).
Proof.
  intros root tmp m LI PT L NM. split; [|reflexivity]. destruct (remove_recursive root tmp tmp m LI (plain_lreal maxlinks _ _ PT) (proj1 PT) L NM) as (root' & E & R). now exists root'.
Qed.

(* ---- links ---- *)
Lemma ups_repeat {A} (l : list A) : map (fun _ => Up) l = repeat Up (length l).
Proof. induction l; cbn [map length repeat]; congruence. Qed.
Lemma lexical_ups from : forall c t, lexical (c ++ from) (map (fun _ => Up) from ++ t) = lexical c t.
Proof.
  induction from as [|x from IH] using rev_ind; intros c t; [now rewrite app_nil_r|]. rewrite ups_repeat, app_length, Nat.add_comm. cbn [length Nat.add repeat app lexical]. rewrite app_assoc, removelast_last. rewrite <- ups_repeat. apply IH.
Qed.
Lemma lexical_names to : forall c, lexical c (map Nm to) = c ++ to.
Proof. induction to as [|x to IH]; intros c; cbn [map lexical]; [now rewrite app_nil_r|]. now rewrite IH, <- app_assoc. Qed.
Lemma relpath_cases from : forall to, exists c f t, from = c ++ f /\ to = c ++ t /\ relpath from to = map (fun _ => Up) f ++ map Nm t.
Proof.
  induction from as [|x from IH]; intros to; [now exists [], [], to|]. destruct to as [|y to]; [now exists [], (x :: from), []|]. cbn [relpath]. destruct (ceq_cases x y) as [[E ->]|[E _]]; rewrite E.
  - destruct (IH to) as (c & f & t & -> & -> & R). now exists (y :: c), f, t.
  - now exists [], (x :: from), (y :: to).
Qed.
Lemma resolve_ups f root from : forall c t, resolve f root (c ++ from) (map (fun _ => Up) from ++ t) = resolve f root c t.
Proof.
  induction from as [|x from IH] using rev_ind; intros c t; [now rewrite app_nil_r|]. rewrite ups_repeat, app_length, Nat.add_comm. cbn [length Nat.add repeat app]. rewrite resolve_up, app_assoc, removelast_last. rewrite <- ups_repeat. apply IH.
Qed.
Theorem link_points : forall root p d, plain root p -> peek root p = None ->
  exists root', link maxlinks p d root = (Ok p, root') /\ linkdest maxlinks root' p = Some d /\ islink root' p = true /\ forall q, below p q = None -> peek root' q = peek root q.
Proof.
  intros root p d P N. destruct (plain_edit root p (Some (Link false (relpath (parent p) d))) P) as [root' E]. exists root'.
  assert (K : forall q, below p q = None -> peek root' q = peek root q) by (intros q B; rewrite (peek_edit _ _ _ _ q E); now rewrite B).
  assert (P' : plain root' p) by (apply (plain_keep root); [exact P|]; intros a b F NB; apply K; exact (longer_none _ _ _ F NB)). pose proof (look_edit _ _ _ _ E) as L. split.
  - unfold link, bnd, os_symlink, DiskModel.lexists. destruct (plain_missing _ _ P N) as [_ LS]. rewrite LS. unfold set_at. now rewrite plain_lreal, E.
  - split; [|split; [|exact K]].
    + unfold linkdest. rewrite plain_lstat, L by exact P'. destruct (relpath_cases (parent p) d) as (c & f & t & F & -> & R). rewrite R, F, lexical_ups. now rewrite lexical_names.
    + unfold DiskModel.islink. now rewrite plain_lstat, L.
Qed.
(* the operating system follows it to the same place *)
Theorem link_followed : forall root p d root', 0 < maxlinks -> plain root p -> peek root p = None -> plain root d -> peek root d <> None -> (forall a t, peek root d <> Some (ALink a t)) -> link maxlinks p d root = (Ok p, root') ->
  exists m m', look root d = Some m /\ stat root' p = Some m' /\ stat root' d = Some m' /\ thing_of m' = thing_of m.
Proof.
  intros root p d root' ML P N PD D ND H. destruct (link_points root p d P N) as (root1 & E & _ & _ & K). rewrite E in H. injection H as ->. unfold link, bnd, os_symlink, DiskModel.lexists in E. destruct (plain_missing _ _ P N) as [_ LS]. rewrite LS in E. unfold set_at in E. rewrite plain_lreal in E by exact P.
  destruct (edit root p (Some (Link false (relpath (parent p) d)))) as [n|] eqn:ED; [|discriminate E]. injection E as ->. pose proof (look_edit _ _ _ _ ED) as L.
  assert (BP : below p d = None). { apply below_none. intros r ->. apply D. now apply peek_none_app. }
  assert (P' : plain root' p) by (apply (plain_keep root); [exact P|]; intros a b F NB; apply K; exact (longer_none _ _ _ F NB)).
  assert (PD' : plain root' d) by (apply (plain_keep root); [exact PD|]; intros a b F NB; apply K; exact (above_apart _ _ _ _ F BP)).
  assert (D' : peek root' d = peek root d) by (now apply K).
  assert (ND' : forall a t, peek root' d <> Some (ALink a t)) by (intros; rewrite D'; apply ND).
  pose proof D' as DT. unfold peek in DT, D. destruct (look root d) as [m|]; [|congruence]. destruct (look root' d) as [m'|] eqn:L'; [|discriminate]. injection DT as DT. exists m, m'. split; [reflexivity|]. rewrite (plain_stat maxlinks root' d PD' ND'), L'. split; [|split; [reflexivity|exact DT]].
  unfold DiskModel.stat. assert (R : real root' p = Some d); [|now rewrite R]. unfold DiskModel.real. assert (PE : p = parent p ++ [last p []]) by (apply (app_removelast_last []); apply P). rewrite PE, map_app.
  assert (G : resolve maxlinks root' [] (map Nm (parent p) ++ map Nm [last p []]) = resolve maxlinks root' (parent p) [Nm (last p [])]).
  { assert (G0 : forall x c f, (forall a b, x = a ++ b -> peek root' (c ++ a) = Some ADir) -> forall y, resolve f root' c (map Nm x ++ y) = resolve f root' (c ++ x) y).
    { clear. induction x as [|z x IH]; intros c f H y; [now rewrite app_nil_r|]. cbn [map app]. rewrite resolve_nm. pose proof (H [z] x eq_refl) as Q. unfold peek in Q. destruct (look root' (c ++ [z])) as [[| |]|]; try discriminate Q. rewrite IH; [now rewrite <- app_assoc|]. intros a b ->. rewrite <- app_assoc. now apply (H (z :: a) b). }
    apply (G0 (parent p) []). intros a b F. cbn [app]. apply (proj2 P' a (b ++ [last p []])); [rewrite app_assoc, <- F; exact PE|now destruct b]. }
  rewrite G, resolve_nm. rewrite <- PE, L. destruct maxlinks as [|ml]; [lia|]. rewrite app_nil_r. destruct (relpath_cases (parent p) d) as (c & f & t & F & DE & R). rewrite R, F, resolve_ups.
  rewrite DE. apply resolve_plain.
  - intros a b TE NA ab tg. destruct b as [|z b]; [rewrite app_nil_r in TE; subst a; rewrite <- DE; apply ND'|]. rewrite (proj2 PD' (c ++ a) (z :: b)); [discriminate|rewrite DE, TE; now rewrite app_assoc|discriminate].
  - intros a b TE NB. rewrite (proj2 PD' (c ++ a) b); [discriminate|rewrite DE, TE; now rewrite app_assoc|exact NB].
Qed.

(* ---- what goes wrong ---- *)
Theorem move_force_self : forall root src dest rename, 0 < limit -> target root src dest rename = src -> plain root src -> peek root src <> None -> (forall a t, peek root src <> Some (ALink a t)) ->
  exists root', move maxlinks limit device candidates src dest true rename root = (Err OSError, root') /\ removed root root' src.
Proof.
  intros root src dest rename LI T P S NL. pose proof (prepare_force root src dest rename LI) as H. cbv zeta in H. rewrite T in H. destruct (H P S NL) as (root1 & E & R & P1 & S1). exists root1. split; [|exact R].
  unfold move, bnd. rewrite E. unfold os_rename. rewrite plain_lreal by exact P1. now rewrite (peek_none _ _ S1).
Qed.
Theorem copy_force_self : forall root src dest follow, 0 < limit -> target root src dest false = src -> plain root src -> peek root src <> None -> (forall a t, peek root src <> Some (ALink a t)) ->
  exists root', copy maxlinks limit src dest true follow root = (Err OSError, root') /\ removed root root' src.
Proof.
  intros root src dest follow LI T P S NL. pose proof (prepare_force root src dest false LI) as H. cbv zeta in H. rewrite T in H. destruct (H P S NL) as (root1 & E & R & P1 & S1). exists root1. split; [|exact R].
  unfold copy, bnd. rewrite E. destruct (plain_missing _ _ P1 S1) as [ST LS]. unfold DiskModel.islink, DiskModel.isdir. rewrite LS, ST. cbn [andb is_dir]. unfold os_copy. now rewrite ST.
Qed.
End Disk.
(* a new name in an existing directory *)
Lemma plain_new root dir x l : look root dir = Some (Dir l) -> plain root (dir ++ [x]).
Proof.
  intros L. split; [now destruct dir|]. intros a b E NB. destruct b as [|y b] using rev_ind; [congruence|]. clear IHb. rewrite app_assoc in E. apply app_inj_tail in E as [E _]. subst dir. destruct b as [|z b].
  - rewrite app_nil_r in L. unfold peek. now rewrite L.
  - apply (peek_above root a (z :: b) ADir); [unfold peek; now rewrite L|discriminate].
Qed.
