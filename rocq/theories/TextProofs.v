From Coq Require Import String.
From Verif Require Import NameSpec.

Lemma ascii_eqb_spec a b : ascii_eqb a b = true <-> a = b.
Proof. unfold ascii_eqb. destruct (ascii_dec a b); split; congruence. Qed.
Lemma ascii_eqb_refl a : ascii_eqb a a = true.
Proof. now apply ascii_eqb_spec. Qed.
Lemma ascii_eqb_neq a b : a <> b -> ascii_eqb a b = false.
Proof. unfold ascii_eqb. destruct (ascii_dec a b); congruence. Qed.
Lemma chars_eqb_spec a b : chars_eqb a b = true <-> a = b.
Proof. unfold chars_eqb. destruct (list_eq_dec ascii_dec a b); split; congruence. Qed.

(* ---- digits ---- *)
Lemma digit_char_ok v : 0 <= v < 10 ->
  digit (digit_char v) = true /\ digit_val (digit_char v) = v.
Proof.
  intros H.
  assert (C : v = 0 \/ v = 1 \/ v = 2 \/ v = 3 \/ v = 4 \/ v = 5 \/ v = 6 \/ v = 7 \/ v = 8 \/ v = 9) by lia.
  repeat (destruct C as [-> | C]; [split; reflexivity |]). subst v. split; reflexivity.
Qed.
Lemma digit_val_range c : digit c = true -> 0 <= digit_val c < 10.
Proof. unfold digit, digit_val. intros H. apply andb_prop in H as [A B]. lia. Qed.
Lemma digit_val_0 c : digit c = true -> digit_val c = 0 -> c = ch 48.
Proof.
  unfold digit_val, ch. intros _ H. rewrite <- (ascii_nat_embedding c). f_equal. lia.
Qed.

Lemma int_of_app a c : int_of (a ++ [c]) = 10 * int_of a + digit_val c.
Proof. unfold int_of. now rewrite fold_left_app. Qed.
Lemma int_of_nonneg l : digits l -> 0 <= int_of l.
Proof.
  induction l as [|c l IH] using rev_ind; intros H; [cbn; lia|].
  rewrite int_of_app. apply Forall_app in H as [H1 H2]. inversion H2; subst.
  pose proof (digit_val_range c ltac:(assumption)). specialize (IH H1). lia.
Qed.
Lemma fold_int_of l a :
  fold_left (fun v c => 10 * v + digit_val c) l a = a * 10 ^ Z.of_nat (length l) + int_of l.
Proof.
  induction l as [|c l IH] using rev_ind; [cbn; lia|].
  unfold int_of in *. rewrite !fold_left_app. cbn [fold_left]. rewrite IH, app_length.
  cbn [length]. rewrite Nat2Z.inj_add, Z.pow_add_r by lia. change (10 ^ Z.of_nat 1) with 10. lia.
Qed.
Lemma value_int_of l : value l = int_of l.
Proof.
  induction l as [|c l IH]; [reflexivity|].
  cbn [value]. rewrite IH. unfold int_of at 2. cbn [fold_left]. rewrite fold_int_of.
  unfold digit_val. lia.
Qed.
Lemma int_of_zeros n l : int_of (repeat (ch 48) n ++ l) = int_of l.
Proof.
  induction n as [|n IH]; [reflexivity|]. cbn [repeat app]. rewrite <- IH.
  unfold int_of at 1. cbn [fold_left]. rewrite fold_int_of. change (10 * 0 + digit_val (ch 48)) with 0. lia.
Qed.

Lemma dec_aux_app f : forall n acc, dec_aux f n acc = dec_aux f n [] ++ acc.
Proof.
  induction f as [|f IH]; intros n acc; [reflexivity|].
  cbn [dec_aux]. destruct (n / 10 =? 0); [reflexivity|].
  rewrite IH, (IH _ [_]), <- app_assoc. reflexivity.
Qed.
Lemma dec_aux_fuel f : forall g n, 0 <= n -> n < 2 ^ Z.of_nat f -> n < 2 ^ Z.of_nat g ->
  (0 < f)%nat -> (0 < g)%nat -> dec_aux f n [] = dec_aux g n [].
Proof.
  induction f as [|f IH]; intros g n H0 H1 H2 Hf Hg; [lia|].
  destruct g as [|g]; [lia|].
  cbn [dec_aux]. destruct (Z.eqb_spec (n / 10) 0); [reflexivity|].
  rewrite dec_aux_app, (dec_aux_app g). f_equal.
  assert (n / 10 <= n / 2) by (apply Z.div_le_lower_bound; [lia|]; pose proof (Z.mul_div_le n 10); pose proof (Z.div_pos n 10); lia).
  assert (2 ^ Z.of_nat (S f) = 2 * 2 ^ Z.of_nat f) by (rewrite Nat2Z.inj_succ, Z.pow_succ_r; lia).
  assert (2 ^ Z.of_nat (S g) = 2 * 2 ^ Z.of_nat g) by (rewrite Nat2Z.inj_succ, Z.pow_succ_r; lia).
  assert (n / 2 < 2 ^ Z.of_nat f) by (apply Z.div_lt_upper_bound; lia).
  assert (n / 2 < 2 ^ Z.of_nat g) by (apply Z.div_lt_upper_bound; lia).
  assert (0 <= n / 10) by (apply Z.div_pos; lia).
  apply IH; try lia.
  - destruct f; [|lia]. change (2 ^ Z.of_nat 0) with 1 in *. lia.
  - destruct g; [|lia]. change (2 ^ Z.of_nat 0) with 1 in *. lia.
Qed.
Lemma log2_fuel n : 0 <= n -> n < 2 ^ Z.of_nat (S (Z.to_nat (Z.log2 n))).
Proof.
  intros H. rewrite Nat2Z.inj_succ, Z2Nat.id by apply Z.log2_nonneg.
  destruct (Z.eq_dec n 0) as [->|]; [cbn; lia|]. apply Z.log2_spec. lia.
Qed.
Lemma dec_eq n : 0 <= n ->
  dec n = if n <? 10 then [digit_char n] else dec (n / 10) ++ [digit_char (n mod 10)].
Proof.
  intros H. unfold dec at 1. cbn [dec_aux].
  destruct (Z.ltb_spec n 10) as [L|L].
  - rewrite Z.div_small by lia. cbn. now rewrite Z.mod_small by lia.
  - assert (1 <= n / 10) by (apply Z.div_le_lower_bound; lia).
    destruct (Z.eqb_spec (n / 10) 0); [lia|].
    rewrite dec_aux_app. f_equal. unfold dec.
    assert (1 <= Z.log2 n) by (change 1 with (Z.log2 2); apply Z.log2_le_mono; lia).
    assert (n / 10 <= n / 2) by (apply Z.div_le_lower_bound; [lia|]; pose proof (Z.mul_div_le n 10); lia).
    pose proof (log2_fuel n H) as F. pose proof (log2_fuel (n / 10) ltac:(lia)) as G.
    apply dec_aux_fuel; try lia.
    rewrite Nat2Z.inj_succ, Z.pow_succ_r in F by lia.
    assert (n / 2 < 2 ^ Z.of_nat (Z.to_nat (Z.log2 n))) by (apply Z.div_lt_upper_bound; lia). lia.
Qed.

Lemma dec_ind (P : Z -> Prop) :
  (forall n, 0 <= n < 10 -> P n) -> (forall n, 10 <= n -> P (n / 10) -> P n) ->
  forall n, 0 <= n -> P n.
Proof.
  intros H1 H2 n Hn. pattern n. apply (Z_lt_induction (fun n => 0 <= n -> P n)); [|exact Hn|exact Hn].
  intros m IH H. destruct (Z_lt_le_dec m 10); [apply H1; lia|].
  assert (0 <= m / 10) by (apply Z.div_pos; lia).
  assert (m / 10 < m) by (apply Z.div_lt; lia).
  apply H2; [lia|]. apply IH; lia.
Qed.

Lemma dec_digits n : 0 <= n -> digits (dec n).
Proof.
  apply (dec_ind (fun n => digits (dec n))).
  - intros m H. rewrite dec_eq by lia. destruct (Z.ltb_spec m 10); [|lia].
    constructor; [|constructor]. now apply digit_char_ok.
  - intros m H IH. rewrite dec_eq by lia. destruct (Z.ltb_spec m 10); [lia|].
    apply Forall_app. split; [exact IH|]. constructor; [|constructor].
    apply digit_char_ok. apply Z.mod_pos_bound. lia.
Qed.
Lemma int_of_dec n : 0 <= n -> int_of (dec n) = n.
Proof.
  apply (dec_ind (fun n => int_of (dec n) = n)).
  - intros m H. rewrite dec_eq by lia. destruct (Z.ltb_spec m 10); [|lia].
    unfold int_of. cbn [fold_left]. pose proof (digit_char_ok m H). lia.
  - intros m H IH. rewrite dec_eq by lia. destruct (Z.ltb_spec m 10); [lia|].
    rewrite int_of_app, IH.
    destruct (digit_char_ok (m mod 10)) as [_ ->]; [apply Z.mod_pos_bound; lia|].
    pose proof (Z.div_mod m 10). lia.
Qed.
Lemma dec_nonempty n : 0 <= n -> dec n <> [].
Proof.
  intros H. rewrite dec_eq by lia. destruct (n <? 10); [discriminate|]. now destruct (dec (n / 10)).
Qed.
Lemma dec_inj a b : 0 <= a -> 0 <= b -> dec a = dec b -> a = b.
Proof. intros Ha Hb E. rewrite <- (int_of_dec a), <- (int_of_dec b), E by assumption. reflexivity. Qed.
Lemma dec_head n c l : 0 < n -> dec n = c :: l -> c <> ch 48.
Proof.
  intros H. assert (H0 : 0 <= n) by lia. revert H c l.
  apply (dec_ind (fun n => 0 < n -> forall c l, dec n = c :: l -> c <> ch 48)); [| |exact H0].
  - intros m Hm Hp c l. rewrite dec_eq by lia. destruct (Z.ltb_spec m 10); [|lia].
    intros E. injection E as <- <-. intros E.
    destruct (digit_char_ok m Hm) as [_ A]. rewrite E in A. change (digit_val (ch 48)) with 0 in A. lia.
  - intros m Hm IH Hp c l. rewrite dec_eq by lia. destruct (Z.ltb_spec m 10); [lia|].
    assert (1 <= m / 10) by (apply Z.div_le_lower_bound; lia).
    destruct (dec (m / 10)) as [|d l'] eqn:E; [now apply dec_nonempty in E; [|lia]|].
    cbn [app]. intros E'. injection E' as -> _. now apply (IH ltac:(lia) c l').
Qed.
Lemma dec_tight n : 0 <= n -> tight (dec n).
Proof.
  intros H c d s E. destruct (Z.eq_dec n 0) as [->|]; [discriminate E|].
  apply (dec_head n c (d :: s)); [lia|exact E].
Qed.
Lemma dec_length_le a b : 0 <= a <= b -> (length (dec a) <= length (dec b))%nat.
Proof.
  intros [H1 H2]. revert b H2. pattern a.
  apply dec_ind; [| |exact H1]; clear a H1.
  - intros a Ha b Hb. rewrite (dec_eq a) by lia. destruct (Z.ltb_spec a 10); [|lia].
    pose proof (dec_nonempty b ltac:(lia)). destruct (dec b); [congruence|cbn; lia].
  - intros a Ha IH b Hb. rewrite (dec_eq a), (dec_eq b) by lia.
    destruct (Z.ltb_spec a 10); [lia|]. destruct (Z.ltb_spec b 10); [lia|].
    rewrite !app_length. cbn [length].
    specialize (IH (b / 10) ltac:(apply Z.div_le_mono; lia)). lia.
Qed.

(* a text of digits without superfluous zeros is the decimal text of its value *)
Lemma int_of_bound l : digits l -> int_of l < 10 ^ Z.of_nat (length l).
Proof.
  induction l as [|c l IH] using rev_ind; intros H; [cbn; lia|].
  rewrite int_of_app, app_length. apply Forall_app in H as [H1 H2]. inversion H2; subst.
  pose proof (digit_val_range c ltac:(assumption)). specialize (IH H1).
  cbn [length]. rewrite Nat2Z.inj_add, Z.pow_add_r by lia. change (10 ^ Z.of_nat 1) with 10. lia.
Qed.
Lemma int_of_pos c l : digits (c :: l) -> c <> ch 48 -> 0 < int_of (c :: l).
Proof.
  intros H N. inversion H; subst. unfold int_of. cbn [fold_left]. rewrite fold_int_of.
  pose proof (digit_val_range c ltac:(assumption)).
  assert (digit_val c <> 0) by (intros E; apply N; now apply digit_val_0).
  pose proof (int_of_nonneg l ltac:(assumption)).
  assert (0 < 10 ^ Z.of_nat (length l)) by (apply Z.pow_pos_nonneg; lia). nia.
Qed.
Lemma dec_int_of l : l <> [] -> digits l -> tight l -> dec (int_of l) = l.
Proof.
  induction l as [|c l IH] using rev_ind; [congruence|]. intros _ H T.
  apply Forall_app in H as [H1 H2]. inversion H2 as [|? ? Hc _]; subst.
  rewrite int_of_app. pose proof (digit_val_range c Hc) as R.
  pose proof (int_of_nonneg l H1) as N0.
  rewrite dec_eq by lia.
  assert (Hch : digit_char (digit_val c) = c).
  { unfold digit_char, digit_val, ch. rewrite <- (ascii_nat_embedding c) at 2. f_equal.
    unfold digit, digit_val in *. apply andb_prop in Hc as [A B]. lia. }
  destruct l as [|d l].
  - change (int_of []) with 0. destruct (Z.ltb_spec (10 * 0 + digit_val c) 10); [|lia].
    cbn [app]. f_equal. replace (10 * 0 + digit_val c) with (digit_val c) by lia. exact Hch.
  - assert (Nz : d <> ch 48).
    { destruct l as [|e l]; [apply (T d c [])|apply (T d e (l ++ [c]))]; reflexivity. }
    pose proof (int_of_pos d l H1 Nz).
    destruct (Z.ltb_spec (10 * int_of (d :: l) + digit_val c) 10); [lia|].
    rewrite (Z.add_comm (10 * _)), (Z.mul_comm 10), Z.div_add, Z.mod_add by lia.
    rewrite Z.div_small, Z.mod_small by lia. rewrite Z.add_0_l, Hch. f_equal.
    apply IH; [discriminate|exact H1|].
    intros a b s E. injection E as -> ->. exact Nz.
Qed.

Lemma zpad_digits w l : digits l -> digits (zpad w l).
Proof.
  intros H. unfold zpad. apply Forall_app. split; [|exact H].
  apply Forall_forall. intros x Hx. apply repeat_spec in Hx as ->. reflexivity.
Qed.
Lemma int_of_zpad w l : int_of (zpad w l) = int_of l.
Proof. apply int_of_zeros. Qed.
Lemma zpad_length w l : length (zpad w l) = Nat.max w (length l).
Proof. unfold zpad. rewrite app_length, repeat_length. lia. Qed.
Lemma zpad_long w l : (w <= length l)%nat -> zpad w l = l.
Proof. intros H. unfold zpad. now replace (w - length l)%nat with O by lia. Qed.

(* ---- str.format ---- *)
Lemma fapp_app a b r : fapp a (fapp b r) = fapp (a ++ b) r.
Proof. destruct r; cbn; try reflexivity. now rewrite app_assoc. Qed.
Lemma fapp_nil r : fapp [] r = r.
Proof. now destruct r. Qed.
Lemma format_literal num u p s : no_braces p ->
  format_go num u None (p ++ s) = fapp p (format_go num u None s).
Proof.
  induction p as [|c p IH]; intros H; [now rewrite fapp_nil|].
  inversion H as [|? ? [A B] Hp]; subst. cbn [app format_go].
  rewrite (ascii_eqb_neq c lbrace A), (ascii_eqb_neq c rbrace B), IH, fapp_app by exact Hp. reflexivity.
Qed.
Lemma format_inside num u f s : forall acc, no_braces f ->
  format_go num u (Some acc) (f ++ s) = format_go num u (Some (rev f ++ acc)) s.
Proof.
  induction f as [|c f IH]; intros acc H; [reflexivity|].
  inversion H as [|? ? [A B] Hf]; subst. cbn [app format_go].
  rewrite (ascii_eqb_neq c rbrace B), (ascii_eqb_neq c lbrace A), IH by exact Hf.
  cbn [rev]. now rewrite <- app_assoc.
Qed.
Lemma digits_no_braces l : digits l -> no_braces l.
Proof.
  apply Forall_impl. intros c H. split; intros ->; discriminate H.
Qed.
Lemma format_field num f w s : no_braces f -> field_width f = Some w -> f <> [] ->
  format_go num false None ([lbrace] ++ f ++ [rbrace] ++ s) =
  fapp (format_int w num) (format_go num true None s).
Proof.
  intros H W N. destruct f as [|c f]; [congruence|].
  inversion H as [|? ? [A B] Hf]; subst.
  cbn [app]. cbn [format_go]. rewrite ascii_eqb_refl, (ascii_eqb_neq c lbrace A), (ascii_eqb_neq c rbrace B).
  rewrite format_inside by exact Hf. cbn [format_go].
  change (rev f ++ [c]) with (rev (c :: f)).
  rewrite ascii_eqb_refl, rev_involutive, W. reflexivity.
Qed.
Lemma field_width_number w : (0 < w)%nat ->
  field_width (txt ":0" ++ dec (Z.of_nat w) ++ txt "d") = Some w.
Proof.
  intros H. change (txt ":0") with [colon; ch 48]. change (txt "d") with [letter_d].
  unfold field_width. cbn [app]. rewrite ascii_eqb_refl.
  replace (rev (ch 48 :: dec (Z.of_nat w) ++ [letter_d]))
    with (letter_d :: rev (ch 48 :: dec (Z.of_nat w)))
    by (cbn [rev]; rewrite rev_app_distr; reflexivity).
  rewrite ascii_eqb_refl, rev_involutive, ascii_eqb_refl.
  rewrite int_of_dec by lia.
  assert (F : forallb digit (dec (Z.of_nat w)) = true).
  { apply forallb_forall. apply Forall_forall. apply dec_digits. lia. }
  rewrite F. destruct (Z.ltb_spec 0 (Z.of_nat w)); [|lia]. cbn [andb]. now rewrite Nat2Z.id.
Qed.
Lemma no_braces_app a b : no_braces (a ++ b) <-> no_braces a /\ no_braces b.
Proof. apply Forall_app. Qed.
Lemma format_number num w s : (0 < w)%nat ->
  format_go num false None (number_field w ++ s) = fapp (format_int w num) (format_go num true None s).
Proof.
  intros H.
  replace (number_field w ++ s)
    with ([lbrace] ++ (txt ":0" ++ dec (Z.of_nat w) ++ txt "d") ++ [rbrace] ++ s).
  2:{ unfold number_field. change (txt "{:0") with ([lbrace] ++ txt ":0").
      change (txt "d}") with (txt "d" ++ [rbrace]). rewrite <- !app_assoc. reflexivity. }
  apply format_field; [|now apply field_width_number|discriminate].
  apply no_braces_app. split; [|apply no_braces_app; split].
  - repeat constructor; discriminate.
  - apply digits_no_braces, dec_digits. lia.
  - repeat constructor; discriminate.
Qed.
Lemma format_plain num s :
  format_go num false None (txt "{:d}" ++ s) = fapp (format_int 0 num) (format_go num true None s).
Proof. apply (format_field num (txt ":d") 0 s); [repeat constructor; discriminate|reflexivity|discriminate]. Qed.
Lemma format_empty num s :
  format_go num false None (txt "({})" ++ s) = fapp ([ch 40] ++ format_int 0 num) (format_go num true None (ch 41 :: s)).
Proof. cbn. now destruct (format_go num true None s). Qed.
Lemma format_tail num s : no_braces s -> format_go num true None s = Fmt s.
Proof.
  intros H. rewrite <- (app_nil_r s) at 1. rewrite format_literal by exact H. cbn. now rewrite app_nil_r.
Qed.

(* ---- runs of digits ---- *)
Lemma runs_none s : forall pos, no_digits s -> runs pos None s = [].
Proof.
  induction s as [|c s IH]; intros pos H; [reflexivity|].
  inversion H as [|? ? A B]; subst. cbn [runs]. rewrite A. now apply IH.
Qed.
Lemma runs_after s pos a : no_digits s -> runs pos (Some a) s = [(a, pos)].
Proof.
  destruct s as [|c s]; intros H; [reflexivity|].
  inversion H as [|? ? A B]; subst. cbn [runs]. rewrite A. f_equal. now apply runs_none.
Qed.
Lemma runs_in ds s : forall pos a, digits ds ->
  runs pos (Some a) (ds ++ s) = runs (pos + length ds) (Some a) s.
Proof.
  induction ds as [|c ds IH]; intros pos a H; [cbn; now rewrite Nat.add_0_r|].
  inversion H as [|? ? A B]; subst. cbn [app runs length]. rewrite A, IH by exact B.
  f_equal. lia.
Qed.
Lemma runs_skip p : forall pos cur x s, digit x = false ->
  exists l, runs pos cur (p ++ [x] ++ s) = l ++ runs (pos + length p + 1) None s.
Proof.
  induction p as [|c p IH]; intros pos cur x s H.
  - cbn [app runs length]. rewrite H, Nat.add_0_r, Nat.add_1_r.
    destruct cur; [now eexists [_]|now exists []].
  - cbn [app runs length]. replace (pos + S (length p) + 1)%nat with (S pos + length p + 1)%nat by lia.
    destruct (digit c); [apply IH, H|].
    destruct cur as [a|]; [|apply IH, H].
    destruct (IH (S pos) None x s H) as [l E]. exists ((a, pos) :: l).
    cbn [app] in E |- *. now rewrite E.
Qed.
Lemma last_runs name pre ds post : last_number name pre ds post ->
  last (finditer_digits name) (0, 0)%nat = (length pre, length pre + length ds)%nat.
Proof.
  intros (-> & N & D & P & E). unfold finditer_digits.
  assert (C : forall pos, runs pos None (ds ++ post) = [(pos, pos + length ds)%nat]).
  { intros pos. destruct ds as [|c ds]; [congruence|]. inversion D as [|? ? A B]; subst.
    cbn [app runs length]. rewrite A, runs_in, runs_after by assumption. f_equal. f_equal. lia. }
  destruct pre as [|x p _] using rev_ind.
  - cbn [app]. rewrite C. reflexivity.
  - destruct (runs_skip p 0 None x (ds ++ post) (E p x eq_refl)) as [l F].
    rewrite <- app_assoc. rewrite F, C, last_last, app_length. cbn [length].
    reflexivity.
Qed.
Lemma no_digits_runs name : no_digits name -> finditer_digits name = [].
Proof. apply runs_none. Qed.

Lemma number_cases name : no_digits name \/ exists pre ds post, last_number name pre ds post.
Proof.
  induction name as [|c s IH]; [left; constructor|].
  destruct IH as [H | (pre & ds & post & -> & N & D & P & E)].
  - destruct (digit c) eqn:C; [right|left; now constructor].
    exists [], [c], s. repeat split; try assumption; try discriminate.
    + now repeat constructor.
    + intros p x F. now destruct p.
  - right. destruct pre as [|x p].
    + destruct (digit c) eqn:C.
      * exists [], (c :: ds), post. repeat split; try assumption; try discriminate. now constructor.
      * exists [c], ds, post. repeat split; try assumption.
        intros p x F. destruct p as [|y [|z p]]; [now injection F as <-|discriminate F|discriminate F].
    + exists (c :: x :: p), ds, post. repeat split; try assumption.
      intros q y F. destruct q as [|z q]; [discriminate F|]. injection F as -> F. now apply (E q y).
Qed.

Lemma last_number_fun name pre ds post pre' ds' post' :
  last_number name pre ds post -> last_number name pre' ds' post' ->
  pre = pre' /\ ds = ds' /\ post = post'.
Proof.
  intros H H'. pose proof (last_runs _ _ _ _ H) as L. rewrite (last_runs _ _ _ _ H') in L.
  injection L as L1 L2. destruct H as (E & _), H' as (E' & _). rewrite E in E'.
  apply app_eq_app in E' as (l & [[-> F] | [-> F]]).
  - rewrite app_length in L1. destruct l; [|cbn in L1; lia].
    rewrite app_nil_r in *. cbn in F.
    apply app_eq_app in F as (l & [[-> F] | [-> F]]); rewrite app_length in L2; (destruct l; [|cbn in L2; lia]);
      rewrite ?app_nil_r in *; now cbn in F.
  - rewrite app_length in L1. destruct l; [|cbn in L1; lia].
    rewrite app_nil_r in *. cbn in F. symmetry in F.
    apply app_eq_app in F as (l & [[-> F] | [-> F]]); rewrite app_length in L2; (destruct l; [|cbn in L2; lia]);
      rewrite ?app_nil_r in *; now cbn in F.
Qed.
Lemma last_number_some name pre ds post : last_number name pre ds post -> ~ no_digits name.
Proof.
  intros (-> & N & D & _) H. apply Forall_app in H as [_ H]. apply Forall_app in H as [H _].
  destruct ds as [|c ds]; [congruence|]. inversion D; inversion H; congruence.
Qed.
