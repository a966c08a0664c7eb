From Coq Require Import String.
From Verif Require Import Base Text TextProofs XiaModel XiaSpec.
From Verif Require PathModel PathProofs.
Close Scope string_scope.
Local Open Scope nat_scope.
Local Notation s := list_ascii_of_string.

(* ---- the matcher ---- *)
Lemma rmatch_open rest t cur cs : rmatch (ROpen :: rest) t cur cs = rmatch rest t [] cs.
Proof. reflexivity. Qed.
Lemma rmatch_close g rest t cur cs : rmatch (RClose g :: rest) t cur cs = rmatch rest t cur ((g, rev cur) :: cs).
Proof. reflexivity. Qed.
Lemma rmatch_lit w rest t cur cs : rmatch (lit w ++ rest) (w ++ t) cur cs = rmatch rest t (rev w ++ cur) cs.
Proof.
  revert cur; induction w as [|c w IH]; intros cur; [reflexivity|].
  cbn [lit map app rmatch]. rewrite ascii_eqb_refl. fold (lit w). rewrite IH.
  cbn [rev]. now rewrite <- app_assoc.
Qed.
Lemma lit_inv w rest : forall t cur cs r, rmatch (lit w ++ rest) t cur cs = Some r ->
  exists t', t = w ++ t' /\ rmatch rest t' (rev w ++ cur) cs = Some r.
Proof.
  induction w as [|c w IH]; intros t cur cs r H; [now exists t|].
  cbn [lit map app rmatch] in H. fold (lit w) in H. destruct t as [|d t]; [discriminate|].
  destruct (ascii_eqb c d) eqn:E; [|discriminate]. apply ascii_eqb_spec in E. subst d.
  destruct (IH _ _ _ _ H) as (t' & -> & M). exists t'. split; [reflexivity|].
  cbn [rev]. now rewrite <- app_assoc.
Qed.
Lemma try_down_inv {A} lo n (f : nat -> option A) v : try_down lo n f = Some v ->
  exists k, lo <= k <= n /\ f k = Some v.
Proof.
  induction n as [|n IH]; cbn [try_down].
  - destruct (0 <? lo) eqn:L; [discriminate|]. apply Nat.ltb_ge in L.
    destruct (f 0) eqn:E; [|discriminate]. intros H. exists 0. split; [lia|congruence].
  - destruct (S n <? lo) eqn:L; [discriminate|]. apply Nat.ltb_ge in L.
    destruct (f (S n)) eqn:E.
    + intros H. exists (S n). split; [lia|congruence].
    + intros H. destruct (IH H) as (k & K & F). exists k. split; [lia|exact F].
Qed.
Lemma try_down_max {A} lo n (f : nat -> option A) k v : lo <= k <= n -> f k = Some v ->
  (forall j, k < j <= n -> f j = None) -> try_down lo n f = Some v.
Proof.
  intros K F N. induction n as [|n IH]; cbn [try_down].
  - replace (0 <? lo) with false by (symmetry; apply Nat.ltb_ge; lia).
    replace k with 0 in F by lia. now rewrite F.
  - replace (S n <? lo) with false by (symmetry; apply Nat.ltb_ge; lia).
    destruct (Nat.eq_dec k (S n)) as [-> | D]; [now rewrite F|].
    rewrite N by lia. apply IH; [lia|]. intros j J. apply N. lia.
Qed.
Lemma run_length_all p t k : k <= run_length p t -> forallb p (firstn k t) = true /\ k <= length t.
Proof.
  revert k; induction t as [|c t IH]; intros k L; cbn [run_length] in L.
  - replace k with 0 by lia. split; [reflexivity|cbn; lia].
  - destruct (p c) eqn:P; [|replace k with 0 by lia; split; [reflexivity|cbn; lia]].
    destruct k as [|k]; [split; [reflexivity|cbn; lia]|].
    destruct (IH k ltac:(lia)) as [A B]. cbn [firstn forallb length]. rewrite P, A. split; [reflexivity|lia].
Qed.
Lemma run_length_ge p w t : forallb p w = true -> length w <= run_length p (w ++ t).
Proof.
  induction w as [|c w IH]; intros H; cbn [app run_length length]; [lia|].
  cbn [forallb] in H. apply Bool.andb_true_iff in H. destruct H as [A B]. rewrite A. specialize (IH B). lia.
Qed.
Lemma run_length_stop p w c t : forallb p w = true -> p c = false -> run_length p (w ++ c :: t) = length w.
Proof.
  intros H N. induction w as [|d w IH]; cbn [app run_length length].
  - now rewrite N.
  - cbn [forallb] in H. apply Bool.andb_true_iff in H. destruct H as [A B]. now rewrite A, IH.
Qed.
Lemma rep_inv p lo rest t cur cs r : rmatch (RRep p lo :: rest) t cur cs = Some r ->
  exists w t', t = w ++ t' /\ forallb p w = true /\ lo <= length w /\ rmatch rest t' (rev w ++ cur) cs = Some r.
Proof.
  cbn [rmatch]. intros H. apply try_down_inv in H. destruct H as (k & K & H).
  destruct (run_length_all p t k (proj2 K)) as [A B].
  exists (firstn k t), (skipn k t). rewrite firstn_skipn. split; [reflexivity|].
  split; [exact A|]. split; [rewrite firstn_length; lia|exact H].
Qed.
Lemma rmatch_rep_stop p lo rest w c t cur cs r : forallb p w = true -> p c = false -> lo <= length w ->
  rmatch rest (c :: t) (rev w ++ cur) cs = Some r -> rmatch (RRep p lo :: rest) (w ++ c :: t) cur cs = Some r.
Proof.
  intros A N L M. cbn [rmatch]. apply (try_down_max lo _ _ (length w)).
  - rewrite run_length_stop by assumption. lia.
  - rewrite skipn_app, skipn_all, Nat.sub_diag, firstn_app, firstn_all, Nat.sub_diag.
    cbn [skipn firstn app]. rewrite app_nil_r. exact M.
  - rewrite run_length_stop by assumption. intros j J. lia.
Qed.
(* a greedy repetition which can only stop at the end of w *)
Lemma rmatch_rep_only p lo rest w t cur cs r : forallb p w = true -> lo <= length w ->
  rmatch rest t (rev w ++ cur) cs = Some r ->
  (forall u t' cs' r', t = u ++ t' -> u <> [] -> rmatch rest t' (rev (w ++ u) ++ cur) cs' = Some r' -> False) ->
  rmatch (RRep p lo :: rest) (w ++ t) cur cs = Some r.
Proof.
  intros A L M N. cbn [rmatch]. apply (try_down_max lo _ _ (length w)).
  - pose proof (run_length_ge p w t A). lia.
  - rewrite skipn_app, skipn_all, Nat.sub_diag, firstn_app, firstn_all, Nat.sub_diag.
    cbn [skipn firstn app]. rewrite app_nil_r. exact M.
  - intros j J. destruct (rmatch rest (skipn j (w ++ t)) (rev (firstn j (w ++ t)) ++ cur) cs) as [r'|] eqn:E; [exfalso|reflexivity].
    destruct (run_length_all p _ j (proj2 J)) as [_ B]. rewrite app_length in B.
    rewrite skipn_app, firstn_app, (skipn_all2 w), (firstn_all2 w) in E by lia. cbn [app] in E.
    eapply (N (firstn (j - length w) t)); [symmetry; apply firstn_skipn| |exact E].
    intros Z. apply (f_equal (@length ascii)) in Z. rewrite firstn_length in Z. cbn [length] in Z. lia.
Qed.

(* ---- the ends of the names ---- *)
Lemma any_true c : any c = true <-> c <> newline.
Proof. unfold any. destruct (ascii_eqb c newline) eqn:E; cbn [negb];
  [apply ascii_eqb_spec in E|]; split; try congruence. intros _ ->. now rewrite ascii_eqb_refl in E. Qed.
Lemma plain_any t : plain t -> forallb any t = true.
Proof.
  intros [N _]. apply forallb_forall. intros c I. apply any_true. intros ->. auto.
Qed.
Definition nl (t : chars) : Prop := t = [] \/ t = [newline].
Lemma edf_inv t cur cs r : rmatch p_edf t cur cs = Some r ->
  exists x n, t = x :: s "edf" ++ n /\ nl n /\ r = cs.
Proof.
  unfold p_edf. cbn [rmatch]. destruct t as [|x t]; [discriminate|].
  destruct (any x); [|discriminate]. intros H. apply lit_inv in H. destruct H as (n & -> & M).
  cbn [rmatch] in M. destruct (at_end n) eqn:E; [|discriminate].
  exists x, n. split; [reflexivity|]. split; [|congruence].
  destruct n as [|c [|d n]]; [now left| |discriminate]. right. cbn [at_end] in E. apply ascii_eqb_spec in E. now subst c.
Qed.
Definition num (d : chars) : Prop := forallb digit d = true /\ 4 <= length d.
Lemma map_inv rest t cur cs r : rmatch (p_map ++ rest) t cur cs = Some r ->
  exists m t' cur', t = s "_" ++ m ++ t' /\ num m /\ rmatch rest t' cur' ((g_map, m) :: cs) = Some r.
Proof.
  unfold p_map. rewrite <- app_assoc. intros H. apply lit_inv in H. destruct H as (t1 & -> & M).
  change ([ROpen; number; RClose g_map] ++ rest) with (ROpen :: RRep digit 4 :: RClose g_map :: rest) in M.
  rewrite rmatch_open in M. apply rep_inv in M. destruct M as (m & t' & -> & A & L & M).
  rewrite rmatch_close in M. rewrite app_nil_r, rev_involutive in M.
  exists m, t', (rev m). split; [reflexivity|]. split; [split; assumption|exact M].
Qed.
Lemma line_inv t cur cs r : rmatch p_line t cur cs = Some r ->
  exists l x n, t = s "_0000_" ++ l ++ x :: s "edf" ++ n /\ num l /\ nl n /\ r = (g_line, l) :: cs.
Proof.
  unfold p_line. intros H. apply lit_inv in H. destruct H as (t1 & -> & M).
  change ([ROpen; number; RClose g_line] ++ p_edf) with (ROpen :: RRep digit 4 :: RClose g_line :: p_edf) in M.
  rewrite rmatch_open in M. apply rep_inv in M. destruct M as (l & t' & -> & A & L & M).
  rewrite rmatch_close in M. rewrite app_nil_r, rev_involutive in M.
  apply edf_inv in M. destruct M as (x & n & -> & N & R).
  exists l, x, n. split; [reflexivity|]. split; [split; assumption|]. split; assumption.
Qed.
Lemma spectrum_end t cur cs r : rmatch (p_map ++ p_line) t cur cs = Some r ->
  exists m l x n, t = s "_" ++ m ++ s "_0000_" ++ l ++ x :: s "edf" ++ n /\ num m /\ num l /\ nl n /\
                  r = (g_line, l) :: (g_map, m) :: cs.
Proof.
  intros H. apply map_inv in H. destruct H as (m & t' & cur' & -> & M & H).
  apply line_inv in H. destruct H as (l & x & n & -> & L & N & R). exists m, l, x, n. auto.
Qed.
Lemma counter_end t cur cs r : rmatch (p_map ++ lit (s "_0000") ++ p_edf) t cur cs = Some r ->
  exists m x n, t = s "_" ++ m ++ s "_0000" ++ x :: s "edf" ++ n /\ num m /\ nl n /\ r = (g_map, m) :: cs.
Proof.
  intros H. apply map_inv in H. destruct H as (m & t' & cur' & -> & M & H).
  apply lit_inv in H. destruct H as (t1 & -> & H). apply edf_inv in H. destruct H as (x & n & -> & N & R).
  exists m, x, n. auto.
Qed.
Lemma spectrum_end_ok m l cur cs : num m -> num l ->
  rmatch (p_map ++ p_line) (s "_" ++ m ++ s "_0000_" ++ l ++ s ".edf") cur cs = Some ((g_line, l) :: (g_map, m) :: cs).
Proof.
  intros [Dm Lm] [Dl Ll]. unfold p_map. rewrite <- app_assoc. rewrite rmatch_lit.
  change ([ROpen; number; RClose g_map] ++ p_line) with (ROpen :: RRep digit 4 :: RClose g_map :: p_line).
  rewrite rmatch_open. change (s "_0000_" ++ l ++ s ".edf") with (underscore :: s "0000_" ++ l ++ s ".edf").
  apply rmatch_rep_stop; [exact Dm|reflexivity|exact Lm|]. rewrite rmatch_close.
  change (underscore :: s "0000_" ++ l ++ s ".edf") with (s "_0000_" ++ l ++ s ".edf").
  unfold p_line. rewrite rmatch_lit.
  change ([ROpen; number; RClose g_line] ++ p_edf) with (ROpen :: RRep digit 4 :: RClose g_line :: p_edf).
  rewrite rmatch_open. change (s ".edf") with (ch 46 :: s "edf").
  apply rmatch_rep_stop; [exact Dl|reflexivity|exact Ll|]. cbn [rmatch].
  rewrite !app_nil_r, !rev_involutive. reflexivity.
Qed.
Lemma counter_end_ok m cur cs : num m ->
  rmatch (p_map ++ lit (s "_0000") ++ p_edf) (s "_" ++ m ++ s "_0000.edf") cur cs = Some ((g_map, m) :: cs).
Proof.
  intros [Dm Lm]. unfold p_map. rewrite <- app_assoc. rewrite rmatch_lit.
  change ([ROpen; number; RClose g_map] ++ lit (s "_0000") ++ p_edf)
    with (ROpen :: RRep digit 4 :: RClose g_map :: lit (s "_0000") ++ p_edf).
  rewrite rmatch_open. change (s "_0000.edf") with (underscore :: s "0000.edf").
  apply rmatch_rep_stop; [exact Dm|reflexivity|exact Lm|]. rewrite rmatch_close.
  rewrite !app_nil_r, !rev_involutive. reflexivity.
Qed.

(* ---- texts read from the right ---- *)
Lemma digits_right d d' a a' c c' : forallb digit d = true -> forallb digit d' = true ->
  digit c = false -> digit c' = false -> a ++ c :: d = a' ++ c' :: d' -> a = a' /\ c = c' /\ d = d'.
Proof.
  revert d'. induction d as [|x d IH] using rev_ind; intros d' D D' C C' E.
  - destruct d' as [|y d' _] using rev_ind.
    + apply app_inj_tail in E. destruct E as [-> ->]. auto.
    + change (a' ++ c' :: d' ++ [y]) with (a' ++ (c' :: d') ++ [y]) in E. rewrite app_assoc in E.
      apply app_inj_tail in E. destruct E as [_ ->]. rewrite forallb_app in D'. cbn [forallb] in D'.
      rewrite C in D'. now rewrite Bool.andb_false_r in D'.
  - change (a ++ c :: d ++ [x]) with (a ++ (c :: d) ++ [x]) in E. rewrite app_assoc in E.
    rewrite forallb_app in D. apply Bool.andb_true_iff in D. destruct D as [D X]. cbn [forallb] in X.
    destruct d' as [|y d' _] using rev_ind.
    + apply app_inj_tail in E. destruct E as [_ ->]. rewrite C' in X. discriminate.
    + change (a' ++ c' :: d' ++ [y]) with (a' ++ (c' :: d') ++ [y]) in E. rewrite app_assoc in E.
      apply app_inj_tail in E. destruct E as [E ->].
      rewrite forallb_app in D'. apply Bool.andb_true_iff in D'.
      destruct (IH d' D (proj1 D') C C' E) as (A & B & F). rewrite A, B, F. auto.
Qed.
Lemma underscore_digit : digit underscore = false.
Proof. reflexivity. Qed.
Lemma under_right d d' a a' : forallb digit d = true -> forallb digit d' = true ->
  a ++ s "_" ++ d = a' ++ s "_" ++ d' -> a = a' /\ d = d'.
Proof.
  intros D D' E. destruct (digits_right d d' a a' underscore underscore D D' underscore_digit underscore_digit E) as (A & _ & B).
  auto.
Qed.
Lemma edf_right a b x n : nl n -> a ++ s ".edf" = b ++ x :: s "edf" ++ n -> a = b.
Proof.
  intros [-> | ->] E; cbn [list_ascii_of_string app] in E.
  - change (a ++ ch 46 :: s "edf") with (a ++ [ch 46] ++ s "edf") in E.
    assert (E' : (a ++ [ch 46]) ++ s "edf" = (b ++ [x]) ++ s "edf") by (rewrite <- !app_assoc; exact E).
    apply app_inv_tail in E'. now apply app_inj_tail in E'.
  - assert (E' : (a ++ s ".ed") ++ [ch 102] = (b ++ x :: s "edf") ++ [newline]) by (rewrite <- !app_assoc; exact E).
    apply app_inj_tail in E'. destruct E' as [_ E']. discriminate.
Qed.
Lemma zeros_right a b : a ++ s "_0000" = b ++ s "_0000" -> a = b.
Proof. apply app_inv_tail. Qed.
Lemma spectrum_unique A m l B m' l' x n : num m -> num l -> num m' -> num l' -> nl n ->
  A ++ s "_" ++ m ++ s "_0000_" ++ l ++ s ".edf" = B ++ s "_" ++ m' ++ s "_0000_" ++ l' ++ x :: s "edf" ++ n ->
  A = B /\ m = m' /\ l = l'.
Proof.
  intros [M _] [L _] [M' _] [L' _] N E.
  assert (E1 : A ++ s "_" ++ m ++ s "_0000_" ++ l = B ++ s "_" ++ m' ++ s "_0000_" ++ l').
  { apply (edf_right _ _ x n N). rewrite <- !app_assoc. exact E. }
  assert (E2 : (A ++ s "_" ++ m ++ s "_0000") ++ s "_" ++ l = (B ++ s "_" ++ m' ++ s "_0000") ++ s "_" ++ l').
  { rewrite <- !app_assoc. exact E1. }
  apply under_right in E2; [|assumption|assumption]. destruct E2 as [E2 ->].
  rewrite !app_assoc in E2. apply zeros_right in E2. rewrite <- !app_assoc in E2.
  apply under_right in E2; [|assumption|assumption]. destruct E2 as [-> ->]. auto.
Qed.
Lemma counter_unique A m B m' x n : num m -> num m' -> nl n ->
  A ++ s "_" ++ m ++ s "_0000.edf" = B ++ s "_" ++ m' ++ s "_0000" ++ x :: s "edf" ++ n -> A = B /\ m = m'.
Proof.
  intros [M _] [M' _] N E.
  assert (E1 : A ++ s "_" ++ m ++ s "_0000" = B ++ s "_" ++ m' ++ s "_0000").
  { apply (edf_right _ _ x n N). rewrite <- !app_assoc. exact E. }
  rewrite !app_assoc in E1. apply zeros_right in E1. rewrite <- !app_assoc in E1.
  apply under_right in E1; assumption.
Qed.
Lemma counter_spectrum A m B m' l' x n : num m -> num m' -> num l' -> nl n ->
  A ++ s "_" ++ m ++ s "_0000.edf" = B ++ s "_" ++ m' ++ s "_0000_" ++ l' ++ x :: s "edf" ++ n ->
  A = B ++ s "_" ++ m'.
Proof.
  intros [M _] [M' _] [L' _] N E.
  assert (E1 : (A ++ s "_" ++ m) ++ s "_" ++ s "0000" = (B ++ s "_" ++ m' ++ s "_0000") ++ s "_" ++ l').
  { apply (edf_right _ _ x n N). rewrite <- !app_assoc. exact E. }
  apply under_right in E1; [|reflexivity|assumption]. destruct E1 as [E1 _].
  assert (E2 : A ++ s "_" ++ m = (B ++ s "_" ++ m') ++ s "_" ++ s "0000") by (rewrite <- !app_assoc; exact E1).
  apply under_right in E2; [|assumption|reflexivity]. now destruct E2.
Qed.

(* ---- the patterns ---- *)
Lemma radix_inv rest t r : rmatch (p_radix ++ rest) t [] [] = Some r ->
  exists w t' cur', t = w ++ t' /\ forallb any w = true /\ w <> [] /\ rmatch rest t' cur' [(g_radix, w)] = Some r.
Proof.
  change (p_radix ++ rest) with (ROpen :: RRep any 1 :: RClose g_radix :: rest). rewrite rmatch_open.
  intros H. apply rep_inv in H. destruct H as (w & t' & -> & A & L & M).
  rewrite rmatch_close in M. rewrite app_nil_r, rev_involutive in M.
  exists w, t', (rev w). split; [reflexivity|]. split; [exact A|].
  split; [intros ->; cbn [length] in L; lia|exact M].
Qed.
Lemma radix_ok rest w t r : w <> [] -> forallb any w = true ->
  rmatch rest t (rev w) [(g_radix, w)] = Some r ->
  (forall u t' cur' cs' r', t = u ++ t' -> u <> [] -> rmatch rest t' cur' cs' = Some r' -> False) ->
  rmatch (p_radix ++ rest) (w ++ t) [] [] = Some r.
Proof.
  intros Ne A M N. change (p_radix ++ rest) with (ROpen :: RRep any 1 :: RClose g_radix :: rest). rewrite rmatch_open.
  apply rmatch_rep_only.
  - exact A.
  - destruct w; [congruence|cbn [length]; lia].
  - rewrite rmatch_close, app_nil_r, rev_involutive. exact M.
  - intros u t' cs' r' E U K. rewrite rmatch_close in K. eapply N; [exact E|exact U|exact K].
Qed.
Definition xia_rest : list ritem :=
  lit (s "_") ++ [ROpen] ++ lit (s "xia") ++ [RChr any; RChr any; RClose g_label] ++ p_map ++ p_line.
Definition mca_rest : list ritem :=
  lit (s "_") ++ [ROpen] ++ lit (s "mca") ++ [RClose g_label] ++ p_map ++ p_line.
Definition ctr_rest (ctr : chars) : list ritem :=
  lit (s "_") ++ [ROpen] ++ lit ctr ++ [RRep any 1; RClose g_label] ++ p_map ++ lit (s "_0000") ++ p_edf.
Lemma xia_rest_inv t cur cs r : rmatch xia_rest t cur cs = Some r ->
  exists a b m l x n, t = s "_xia" ++ [a; b] ++ s "_" ++ m ++ s "_0000_" ++ l ++ x :: s "edf" ++ n /\
    num m /\ num l /\ nl n.
Proof.
  unfold xia_rest. intros H. apply lit_inv in H. destruct H as (t1 & -> & H).
  cbn [app] in H. rewrite rmatch_open in H. apply lit_inv in H. destruct H as (t2 & -> & H). cbn [rmatch] in H.
  destruct t2 as [|a t2]; [discriminate|]. destruct (any a); [|discriminate].
  destruct t2 as [|b t2]; [discriminate|]. destruct (any b); [|discriminate].
  apply spectrum_end in H. destruct H as (m & l & x & n & -> & M & L & N & _).
  exists a, b, m, l, x, n. auto.
Qed.
Lemma mca_rest_inv t cur cs r : rmatch mca_rest t cur cs = Some r ->
  exists m l x n, t = s "_mca" ++ s "_" ++ m ++ s "_0000_" ++ l ++ x :: s "edf" ++ n /\
    num m /\ num l /\ nl n.
Proof.
  unfold mca_rest. intros H. apply lit_inv in H. destruct H as (t1 & -> & H).
  cbn [app] in H. rewrite rmatch_open in H. apply lit_inv in H. destruct H as (t2 & -> & H). cbn [app] in H. rewrite rmatch_close in H.
  apply spectrum_end in H. destruct H as (m & l & x & n & -> & M & L & N & _).
  exists m, l, x, n. auto.
Qed.
Lemma ctr_rest_inv ctr t cur cs r : rmatch (ctr_rest ctr) t cur cs = Some r ->
  exists y m x n, t = s "_" ++ ctr ++ y ++ s "_" ++ m ++ s "_0000" ++ x :: s "edf" ++ n /\
    y <> [] /\ num m /\ nl n.
Proof.
  unfold ctr_rest. intros H. apply lit_inv in H. destruct H as (t1 & -> & H).
  cbn [app] in H. rewrite rmatch_open in H. apply lit_inv in H. destruct H as (t2 & -> & H). cbn [app] in H.
  apply rep_inv in H. destruct H as (y & t3 & -> & A & L & H). rewrite rmatch_close in H.
  apply counter_end in H. destruct H as (m & x & n & -> & M & N & _).
  exists y, m, x, n. split; [reflexivity|]. split; [intros ->; cbn [length] in L; lia|]. auto.
Qed.
Lemma xia_items_rest : xia_items = p_radix ++ xia_rest.
Proof. reflexivity. Qed.
Lemma mca_items_rest : mca_items = p_radix ++ mca_rest.
Proof. reflexivity. Qed.
Lemma ctr_items_rest ctr : ctr_items ctr = p_radix ++ ctr_rest ctr.
Proof. reflexivity. Qed.

Lemma xia_ok radix a b m l : radix <> [] -> forallb any radix = true -> any a = true -> any b = true ->
  num m -> num l ->
  rmatch xia_items (radix ++ s "_xia" ++ [a; b] ++ s "_" ++ m ++ s "_0000_" ++ l ++ s ".edf") [] [] =
  Some [(g_line, l); (g_map, m); (g_label, s "xia" ++ [a; b]); (g_radix, radix)].
Proof.
  intros Ne A Pa Pb M L. rewrite xia_items_rest. apply radix_ok; [exact Ne|exact A| |].
  - unfold xia_rest. change (s "_xia" ++ [a; b] ++ s "_" ++ m ++ s "_0000_" ++ l ++ s ".edf")
      with (s "_" ++ s "xia" ++ [a; b] ++ s "_" ++ m ++ s "_0000_" ++ l ++ s ".edf").
    rewrite rmatch_lit. cbn [app]. rewrite rmatch_open, rmatch_lit. cbn [app rmatch]. rewrite Pa, Pb.
    apply (spectrum_end_ok m l _ _ M L).
  - intros u t' cur' cs' r' E U K. apply xia_rest_inv in K.
    destruct K as (a' & b' & m' & l' & x & n & -> & M' & L' & N).
    assert (E' : (s "_xia" ++ [a; b]) ++ s "_" ++ m ++ s "_0000_" ++ l ++ s ".edf" =
                 (u ++ s "_xia" ++ [a'; b']) ++ s "_" ++ m' ++ s "_0000_" ++ l' ++ x :: s "edf" ++ n)
      by (rewrite <- !app_assoc; exact E).
    apply spectrum_unique in E'; try assumption. destruct E' as [E' _].
    apply (f_equal (@length ascii)) in E'. rewrite !app_length in E'. cbn [length list_ascii_of_string] in E'.
    destruct u; [congruence|cbn [length] in E'; lia].
Qed.
Lemma mca_ok radix m l : radix <> [] -> forallb any radix = true -> num m -> num l ->
  rmatch mca_items (radix ++ s "_mca" ++ s "_" ++ m ++ s "_0000_" ++ l ++ s ".edf") [] [] =
  Some [(g_line, l); (g_map, m); (g_label, s "mca"); (g_radix, radix)].
Proof.
  intros Ne A M L. rewrite mca_items_rest. apply radix_ok; [exact Ne|exact A| |].
  - unfold mca_rest. change (s "_mca" ++ s "_" ++ m ++ s "_0000_" ++ l ++ s ".edf")
      with (s "_" ++ s "mca" ++ s "_" ++ m ++ s "_0000_" ++ l ++ s ".edf").
    rewrite rmatch_lit. cbn [app]. rewrite rmatch_open, rmatch_lit. cbn [app]. rewrite rmatch_close.
    apply (spectrum_end_ok m l _ _ M L).
  - intros u t' cur' cs' r' E U K. apply mca_rest_inv in K.
    destruct K as (m' & l' & x & n & -> & M' & L' & N).
    assert (E' : s "_mca" ++ s "_" ++ m ++ s "_0000_" ++ l ++ s ".edf" =
                 (u ++ s "_mca") ++ s "_" ++ m' ++ s "_0000_" ++ l' ++ x :: s "edf" ++ n)
      by (rewrite <- !app_assoc; exact E).
    apply spectrum_unique in E'; try assumption. destruct E' as [E' _].
    apply (f_equal (@length ascii)) in E'. rewrite !app_length in E'. cbn [length list_ascii_of_string] in E'.
    destruct u; [congruence|cbn [length] in E'; lia].
Qed.
Lemma mca_not_xia radix m l : num m -> num l ->
  rmatch xia_items (radix ++ s "_mca" ++ s "_" ++ m ++ s "_0000_" ++ l ++ s ".edf") [] [] = None.
Proof.
  intros M L. destruct (rmatch xia_items _ [] []) as [r|] eqn:H; [exfalso|reflexivity].
  rewrite xia_items_rest in H. apply radix_inv in H. destruct H as (w & t' & cur' & E & _ & _ & K).
  apply xia_rest_inv in K. destruct K as (a' & b' & m' & l' & x & n & -> & M' & L' & N).
  assert (E' : (radix ++ s "_mca") ++ s "_" ++ m ++ s "_0000_" ++ l ++ s ".edf" =
               (w ++ s "_xia" ++ [a'; b']) ++ s "_" ++ m' ++ s "_0000_" ++ l' ++ x :: s "edf" ++ n)
    by (rewrite <- !app_assoc; exact E).
  apply spectrum_unique in E'; try assumption. destruct E' as [E' _].
  assert (Q : ((radix ++ [ch 95]) ++ [ch 109]) ++ [ch 99; ch 97] = ((w ++ s "_xi") ++ [ch 97]) ++ [a'; b'])
    by (rewrite <- !app_assoc; exact E').
  change [ch 99; ch 97] with ([ch 99] ++ [ch 97]) in Q. change [a'; b'] with ([a'] ++ [b']) in Q.
  rewrite !app_assoc in Q. apply app_inj_tail in Q. destruct Q as [Q _].
  apply app_inj_tail in Q. destruct Q as [Q _]. apply app_inj_tail in Q. destruct Q as [_ Q]. discriminate.
Qed.
(* the counter pattern on the name of a counter file finds its last occurrence *)
Lemma ctr_ok ctr y radix m : radix <> [] -> forallb any radix = true -> y <> [] -> forallb any y = true ->
  num m -> ~ occurs (s "_" ++ ctr) (ctr ++ y) ->
  rmatch (ctr_items ctr) (radix ++ s "_" ++ (ctr ++ y) ++ s "_" ++ m ++ s "_0000.edf") [] [] =
  Some [(g_map, m); (g_label, ctr ++ y); (g_radix, radix)].
Proof.
  intros Ne A Ny Ay M O. rewrite ctr_items_rest. apply radix_ok; [exact Ne|exact A| |].
  - unfold ctr_rest. rewrite rmatch_lit. cbn [app]. rewrite rmatch_open, <- app_assoc, rmatch_lit. cbn [app].
    apply rmatch_rep_only; [exact Ay|destruct y; [congruence|cbn [length]; lia]| |].
    + rewrite rmatch_close, app_nil_r, rev_app_distr, !rev_involutive. apply (counter_end_ok m _ _ M).
    + intros u t' cs' r' E U K. rewrite rmatch_close in K. apply counter_end in K.
      destruct K as (m' & x & n & -> & M' & N & _).
      assert (E' : [] ++ s "_" ++ m ++ s "_0000.edf" = u ++ s "_" ++ m' ++ s "_0000" ++ x :: s "edf" ++ n) by exact E.
      apply counter_unique in E'; try assumption. destruct E' as [E' _]. congruence.
  - intros u t' cur' cs' r' E U K. apply ctr_rest_inv in K.
    destruct K as (y' & m' & x & n & -> & Ny' & M' & N).
    assert (E' : (s "_" ++ ctr ++ y) ++ s "_" ++ m ++ s "_0000.edf" =
                 (u ++ s "_" ++ ctr ++ y') ++ s "_" ++ m' ++ s "_0000" ++ x :: s "edf" ++ n).
    { rewrite <- !app_assoc. rewrite <- !app_assoc in E. exact E. }
    apply counter_unique in E'; try assumption. destruct E' as [E' _].
    destruct u as [|c u]; [congruence|]. cbn [list_ascii_of_string app] in E'.
    apply O. exists u, y'. injection E' as _ E'. rewrite E'. rewrite <- !app_assoc. reflexivity.
Qed.
Lemma ctr_none ctr radix label m : num m -> ~ occurs (s "_" ++ ctr) (radix ++ s "_" ++ label) ->
  rmatch (ctr_items ctr) (radix ++ s "_" ++ label ++ s "_" ++ m ++ s "_0000.edf") [] [] = None.
Proof.
  intros M O. destruct (rmatch (ctr_items ctr) _ [] []) as [r|] eqn:H; [exfalso|reflexivity].
  rewrite ctr_items_rest in H. apply radix_inv in H. destruct H as (w & t' & cur' & E & _ & _ & K).
  apply ctr_rest_inv in K. destruct K as (y' & m' & x & n & -> & Ny' & M' & N).
  assert (E' : (radix ++ s "_" ++ label) ++ s "_" ++ m ++ s "_0000.edf" =
               (w ++ s "_" ++ ctr ++ y') ++ s "_" ++ m' ++ s "_0000" ++ x :: s "edf" ++ n).
  { rewrite <- !app_assoc. exact E. }
  apply counter_unique in E'; try assumption. destruct E' as [E' _].
  apply O. exists w, y'. rewrite E'. rewrite <- !app_assoc. reflexivity.
Qed.
Lemma numbered_label radix ctr y B m : num m -> digit (hd underscore ctr) = false -> ctr <> [] ->
  radix ++ s "_" ++ ctr ++ y = B ++ s "_" ++ m -> numbered (ctr ++ y) .
Proof.
  intros [D L] C Nc E.
  (* the digits m lie inside the label *)
  destruct (Nat.le_gt_cases (length (ctr ++ y)) (length m)) as [G|G].
  - exfalso. destruct ctr as [|c ctr]; [congruence|]. cbn [hd] in C.
    assert (E1 : rev (c :: ctr ++ y) ++ rev (radix ++ s "_") = rev m ++ rev (B ++ s "_")).
    { rewrite <- !rev_app_distr. rewrite <- !app_assoc. f_equal. exact E. }
    apply (f_equal (firstn (length (c :: ctr ++ y)))) in E1.
    rewrite firstn_app, firstn_all2, rev_length, Nat.sub_diag in E1 by (now rewrite rev_length).
    cbn [firstn] in E1. rewrite app_nil_r in E1.
    rewrite firstn_app, rev_length in E1. change ((c :: ctr) ++ y) with (c :: ctr ++ y) in G.
    replace (length (c :: ctr ++ y) - length m) with 0 in E1 by lia. cbn [firstn] in E1. rewrite app_nil_r in E1.
    assert (I : In c (rev (c :: ctr ++ y))) by (apply -> in_rev; now left).
    rewrite E1 in I. assert (I' : In c (rev m)) by (rewrite <- (firstn_skipn (length (c :: ctr ++ y)) (rev m)); apply in_or_app; now left).
    apply in_rev in I'. rewrite forallb_forall in D. rewrite (D c I') in C. discriminate.
  - assert (E1 : rev (ctr ++ y) ++ rev (radix ++ s "_") = rev m ++ rev (B ++ s "_")).
    { rewrite <- !rev_app_distr. rewrite <- !app_assoc. f_equal. exact E. }
    assert (E2 : firstn (S (length m)) (rev (ctr ++ y)) = rev m ++ [underscore]).
    { transitivity (firstn (S (length m)) (rev (ctr ++ y) ++ rev (radix ++ s "_"))).
      - rewrite firstn_app, rev_length. replace (S (length m) - length (ctr ++ y)) with 0 by lia.
        cbn [firstn]. now rewrite app_nil_r.
      - rewrite E1, firstn_app, rev_length, firstn_all2 by (rewrite rev_length; lia).
        replace (S (length m) - length m) with 1 by lia. rewrite rev_app_distr. reflexivity. }
    exists (rev (skipn (S (length m)) (rev (ctr ++ y)))), m. split; [|split; assumption].
    rewrite <- (rev_involutive (ctr ++ y)) at 1. rewrite <- (firstn_skipn (S (length m)) (rev (ctr ++ y))) at 1.
    rewrite E2. set (K := skipn (S (Datatypes.length m)) (rev (ctr ++ y))). clearbody K.
    rewrite (rev_app_distr (rev m ++ [underscore]) K), rev_app_distr, rev_involutive. reflexivity.
Qed.
Lemma ctr_not_spectrum items rest radix ctr y m :
  (forall t cur cs r, rmatch rest t cur cs = Some r -> exists q m l x n,
     t = q ++ s "_" ++ m ++ s "_0000_" ++ l ++ x :: s "edf" ++ n /\ num m /\ num l /\ nl n) ->
  items = p_radix ++ rest -> num m -> digit (hd underscore ctr) = false -> ctr <> [] -> ~ numbered (ctr ++ y) ->
  rmatch items (radix ++ s "_" ++ (ctr ++ y) ++ s "_" ++ m ++ s "_0000.edf") [] [] = None.
Proof.
  intros I -> M C Nc Nn. destruct (rmatch (p_radix ++ rest) _ [] []) as [r|] eqn:H; [exfalso|reflexivity].
  apply radix_inv in H. destruct H as (w & t' & cur' & E & _ & _ & K).
  apply I in K. destruct K as (q & m' & l & x & n & -> & M' & L & N).
  assert (E' : (radix ++ s "_" ++ ctr ++ y) ++ s "_" ++ m ++ s "_0000.edf" =
               (w ++ q) ++ s "_" ++ m' ++ s "_0000_" ++ l ++ x :: s "edf" ++ n).
  { rewrite <- !app_assoc. rewrite <- !app_assoc in E. exact E. }
  apply counter_spectrum in E'; try assumption. apply Nn. exact (numbered_label radix ctr y (w ++ q) m' M' C Nc E').
Qed.
