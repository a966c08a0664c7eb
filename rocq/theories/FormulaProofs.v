From Verif Require Import QcTac FitProofs MatProofs StoichProofs StoichMixProofs FormulaModel FormulaSpec.
Local Open Scope nat_scope.

(* ---- characters ---- *)
Ltac chars c := destruct c as [[] [] [] [] [] [] [] []]; vm_compute; intuition discriminate.
Lemma upper_facts c : upper c = true -> lower c = false /\ digit c = false /\ blank c = false /\ c <> lpar /\ c <> rpar /\ c <> point /\ alpha c = true.
Proof. chars c. Qed.
Lemma lower_facts c : lower c = true -> digit c = false /\ blank c = false /\ upper c = false /\ c <> lpar /\ c <> rpar /\ c <> point /\ alpha c = true.
Proof. chars c. Qed.
Lemma digit_facts c : digit c = true -> upper c = false /\ lower c = false /\ blank c = false /\ c <> lpar /\ c <> rpar /\ c <> point /\ alpha c = false.
Proof. chars c. Qed.
Lemma blank_facts c : blank c = true -> upper c = false /\ lower c = false /\ digit c = false /\ c <> lpar /\ c <> rpar /\ c <> point /\ alpha c = false.
Proof. chars c. Qed.
Lemma point_facts : digit point = false /\ upper point = false /\ lower point = false /\ blank point = false /\ alpha point = false.
Proof. vm_compute. auto. Qed.
Lemma lpar_facts : digit lpar = false /\ upper lpar = false /\ lower lpar = false /\ blank lpar = false /\ lpar <> point /\ lpar <> rpar.
Proof. vm_compute. intuition discriminate. Qed.
Lemma rpar_facts : digit rpar = false /\ upper rpar = false /\ lower rpar = false /\ blank rpar = false /\ rpar <> point /\ rpar <> lpar.
Proof. vm_compute. intuition discriminate. Qed.

Lemma skip_blanks w s : blanks w -> skip (w ++ s) = skip s.
Proof. induction 1 as [|c w H _ IH]; [reflexivity|]. cbn [app skip]. now rewrite H. Qed.
Lemma skip_head c s : blank c = false -> skip (c :: s) = c :: s.
Proof. intros H. cbn [skip]. now rewrite H. Qed.
Lemma skip_split s : exists w, blanks w /\ s = w ++ skip s.
Proof.
  induction s as [|c s (w & Hw & E)]; [exists []; now split; [constructor|]|]. cbn [skip]. destruct (blank c) eqn:B.
  - exists (c :: w). split; [now constructor|]. cbn [app]. now rewrite <- E.
  - exists []. now split; [constructor|].
Qed.
Lemma skip_length s : length (skip s) <= length s.
Proof. destruct (skip_split s) as (w & _ & E). rewrite E at 2. rewrite app_length. lia. Qed.
Lemma span_split s : exists a r, span s = (a, r) /\ s = a ++ r /\ all_digits a /\ match r with c :: _ => digit c = false | [] => True end.
Proof.
  induction s as [|c s (a & r & E & -> & Ha & Hr)]; [exists [], []; repeat split; constructor|]. cbn [span]. destruct (digit c) eqn:D.
  - rewrite E. exists (c :: a), r. repeat split; [now constructor|assumption].
  - exists [], (c :: a ++ r). repeat split; [constructor|assumption].
Qed.
Lemma span_app a r : all_digits a -> match r with c :: _ => digit c = false | [] => True end -> span (a ++ r) = (a, r).
Proof.
  induction 1 as [|c a H _ IH]; intros Hr; cbn [app span].
  - destruct r as [|c r]; [reflexivity|]. cbn [span]. now rewrite Hr.
  - rewrite H, IH by assumption. reflexivity.
Qed.

(* ---- numbers ---- *)
Lemma int_value_acc s v : fold_left (fun v c => (10 * v + digit_value c)%Z) s v = (v * 10 ^ Z.of_nat (length s) + decimal s)%Z.
Proof.
  revert v. induction s as [|c s IH]; intros v; [cbn [fold_left length decimal]; rewrite Z.pow_0_r; lia|].
  cbn [fold_left decimal length]. rewrite IH, Nat2Z.inj_succ, Z.pow_succ_r by lia. ring.
Qed.
Lemma int_value_decimal s : int_value s = decimal s.
Proof. unfold int_value. rewrite int_value_acc. lia. Qed.
Lemma float_numeral m q : numeral m q -> float_of m = Ok q.
Proof.
  intros [a Ha Da|a b Ha Da Db|b Hb Db]; unfold float_of.
  - assert (span a = (a, [])) as -> by (rewrite <- (app_nil_r a) at 1; now apply span_app). rewrite int_value_decimal. now destruct a.
  - rewrite span_app by (try assumption; apply point_facts). assert (span b = (b, [])) as -> by (rewrite <- (app_nil_r b) at 1; now apply span_app).
    destruct (ascii_dec point point) as [_|]; [|contradiction]. rewrite !int_value_decimal.
    destruct b as [|c b]; [|destruct a; [contradiction|reflexivity]].
    destruct a as [|x a]; [contradiction|]. cbn [length Nat.eqb]. f_equal. unfold decimals. change (decimal []) with 0%Z. change (Qc_of_Z 0) with (0)%Qc. unfold Qcdiv. ring.
  - cbn [span]. rewrite (proj1 point_facts). destruct (ascii_dec point point) as [_|]; [|contradiction].
    assert (span b = (b, [])) as -> by (rewrite <- (app_nil_r b) at 1; now apply span_app). rewrite !int_value_decimal. destruct b as [|c b]; [contradiction|].
    f_equal. unfold decimals. change (decimal []) with 0%Z. change (Qc_of_Z 0) with 0%Qc. ring.
Qed.
Lemma numeral_last m q : numeral m q -> exists m' c, m = m' ++ [c] /\ alpha c = false.
Proof.
  assert (forall a, a <> [] -> all_digits a -> exists m' c, a = m' ++ [c] /\ alpha c = false) as HD.
  { intros a Ha Da. destruct (exists_last Ha) as (m' & c & ->). exists m', c. split; [reflexivity|]. apply Forall_app in Da as [_ Da]. inversion_clear Da. now apply digit_facts. }
  intros [a Ha Da|a b Ha Da Db|b Hb Db]; [now apply HD| |].
  - destruct b as [|c b]; [exists a, point; split; [reflexivity|apply point_facts]|]. destruct (HD (c :: b)) as (m' & c' & -> & H); [discriminate|assumption|].
    exists (a ++ point :: m'), c'. split; [now rewrite <- app_assoc|assumption].
  - destruct (HD b Hb Db) as (m' & c' & -> & H). exists (point :: m'), c'. now split.
Qed.
Lemma numeral_alpha m q : numeral m q -> isalpha m = false.
Proof.
  intros H. destruct (numeral_last m q H) as (m' & c & -> & A). unfold isalpha. assert (forallb alpha (m' ++ [c]) = false) as E by (rewrite forallb_app; cbn; rewrite A; apply andb_false_r).
  destruct (m' ++ [c]); [reflexivity|exact E].
Qed.
Lemma symbol_last s : symbol s -> exists s' c, s = s' ++ [c] /\ alpha c = true.
Proof.
  intros [c H|c d H H']; [exists [], c|exists [c], d]; (split; [reflexivity|]); [now apply upper_facts|now apply lower_facts].
Qed.
Lemma last_of_app {A} (l : list A) x : last_of (l ++ [x]) = Ok x.
Proof. unfold last_of. now rewrite rev_app_distr. Qed.

(* ---- what the parser returns ---- *)
Inductive shows : parsed -> part -> Prop :=
| shows_el s m q : symbol s -> numeral m q -> shows (Grp [Tok s; Tok m]) (El s q)
| shows_gr l f m q : lshows l f -> numeral m q -> shows (Grp [Grp l; Tok m]) (Gr f q)
with lshows : list parsed -> list part -> Prop :=
| lshows_one p q : shows p q -> lshows [p] [q]
| lshows_more p q l f : shows p q -> lshows l f -> lshows (p :: l) (q :: f).
Scheme shows_mind := Induction for shows Sort Prop with lshows_mind := Induction for lshows Sort Prop.
Combined Scheme shows_ind2 from shows_mind, lshows_mind.

Definition each_result (mult : Qc) : list parsed -> counts -> result counts :=
  fix each (l : list parsed) (d : counts) {struct l} : result counts :=
    match l with [] => Ok d | r :: l => let! d := parseresult r mult d in each l d end.
Lemma chars_eqb_eq a b : chars_eqb a b = true <-> a = b.
Proof. unfold chars_eqb. destruct (list_eq_dec ascii_dec a b); intuition discriminate. Qed.
Lemma share_dict_add e d k v : share chars_eqb e (dict_add chars_eqb d k v) = (share chars_eqb e d + (if chars_eqb k e then v else 0))%Qc.
Proof.
  rewrite !share_wsum, wsum_dict_add.
  - destruct (chars_eqb k e); ring.
  - intros k' _ H. apply chars_eqb_eq in H. now subst.
Qed.
Local Open Scope Qc_scope.
Lemma lshows_last l f : lshows l f -> exists l' p, l = l' ++ [Grp p].
Proof.
  induction 1 as [p q H|p q l f H _ (l' & x & ->)]; [|exists (p :: l'), x; reflexivity].
  destruct H; [exists [], [Tok s; Tok m]|exists [], [Grp l; Tok m]]; reflexivity.
Qed.
Lemma numeral_ignored m q mult d : numeral m q -> parseresult (Tok m) mult d = Ok d.
Proof. intros H. destruct (numeral_last m q H) as (m' & c & -> & A). cbn [parseresult]. rewrite last_of_app. cbn [bind]. now rewrite A. Qed.
Lemma evaluated :
  (forall p q, shows p q -> forall mult d, no_repeats chars_eqb (map fst d) -> exists d', parseresult p mult d = Ok d' /\ no_repeats chars_eqb (map fst d') /\
     forall e, share chars_eqb e d' = share chars_eqb e d + mult * count e q) /\
  (forall l f, lshows l f -> forall mult d, no_repeats chars_eqb (map fst d) -> exists d', each_result mult l d = Ok d' /\ no_repeats chars_eqb (map fst d') /\
     forall e, share chars_eqb e d' = share chars_eqb e d + mult * counted e f).
Proof.
  apply shows_ind2.
  - intros s m q Hs Hm mult d Hd.
    change (parseresult (Grp [Tok s; Tok m]) mult d) with (let! mult := if isalpha m then Ok mult else let! q := float_of m in Ok (mult * q) in each_result mult [Tok s; Tok m] d).
    rewrite (numeral_alpha m q Hm), (float_numeral m q Hm). cbn [bind each_result]. destruct (symbol_last s Hs) as (s' & c & Es & A).
    assert (parseresult (Tok s) (mult * q) d = Ok (dict_add chars_eqb d s (mult * q))) as ->.
    { cbn [parseresult]. rewrite Es at 1. rewrite last_of_app. cbn [bind]. now rewrite A. }
    cbn [bind]. rewrite (numeral_ignored m q) by assumption. cbn [bind]. eexists. split; [reflexivity|]. split; [now apply dict_add_norep|].
    intros e. rewrite share_dict_add. cbn [count]. destruct (chars_eqb s e); ring.
  - intros l f m q Hl IH Hm mult d Hd.
    change (parseresult (Grp [Grp l; Tok m]) mult d) with (let! mult := if isalpha m then Ok mult else let! q := float_of m in Ok (mult * q) in each_result mult [Grp l; Tok m] d).
    rewrite (numeral_alpha m q Hm), (float_numeral m q Hm). cbn [bind each_result].
    change (parseresult (Grp l) (mult * q) d) with (let! x := last_of l in let! mult := match x with Tok t => if isalpha t then Ok (mult * q) else let! r := float_of t in Ok (mult * q * r) | Grp _ => Ok (mult * q) end in each_result mult l d).
    destruct (lshows_last l f Hl) as (l' & x & EL). assert (last_of l = Ok (Grp x)) as -> by (rewrite EL; apply last_of_app). cbn [bind].
    destruct (IH (mult * q) d Hd) as (d' & -> & Hd' & HS). cbn [bind]. rewrite (numeral_ignored m q) by assumption. cbn [bind].
    exists d'. split; [reflexivity|]. split; [assumption|]. intros e. rewrite HS. cbn [count]. fold (counted e f). ring.
  - intros p q Hp IH mult d Hd. destruct (IH mult d Hd) as (d' & E & Hd' & HS). cbn [each_result]. rewrite E. cbn [bind]. exists d'. split; [reflexivity|]. split; [assumption|].
    intros e. rewrite HS. unfold counted. cbn [map]. change (qsum [?x]) with (x + 0). ring.
  - intros p q l f Hp IH Hl IHl mult d Hd. destruct (IH mult d Hd) as (d' & E & Hd' & HS). cbn [each_result]. rewrite E. cbn [bind].
    destruct (IHl mult d' Hd') as (d'' & E' & Hd'' & HS'). exists d''. split; [exact E'|]. split; [assumption|].
    intros e. rewrite HS', HS. unfold counted. cbn [map]. change (qsum (?x :: ?y)) with (x + qsum y). ring.
Qed.
Lemma evaluated_top l f : lshows l f -> exists d, parseresult (Grp l) 1 [] = Ok d /\ counts_of f d.
Proof.
  intros H. change (parseresult (Grp l) 1 []) with (let! x := last_of l in let! mult := match x with Tok t => if isalpha t then Ok 1 else let! r := float_of t in Ok (1 * r) | Grp _ => Ok 1 end in each_result mult l []).
  destruct (lshows_last l f H) as (l' & x & EL). assert (last_of l = Ok (Grp x)) as -> by (rewrite EL; apply last_of_app). cbn [bind].
  destruct (proj2 evaluated l f H 1 []) as (d & -> & Hd & HS); [constructor|]. exists d. split; [reflexivity|]. split; [assumption|]. intros e. rewrite HS. change (share chars_eqb e []) with 0. ring.
Qed.
Local Close Scope Qc_scope.

(* ---- one part ---- *)
Definition atom_of (n : nat) (s : chars) : outcome :=
  match element s with
  | Some (e, r) => Got [Tok e] r
  | None =>
      match s with
      | c :: r =>
          if ascii_dec c lpar then
            match formula n r with
            | Got l r' => match skip r' with c' :: r'' => if ascii_dec c' rpar then Got [Grp l] r'' else Fail | [] => Fail end
            | o => o
            end
          else Fail
      | [] => Fail
      end
  end.
Definition mult_of (r : chars) : chars * chars := match fnumber (skip r) with Some (m, r') => (m, r') | None => ([one], r) end.
Definition part_of (n : nat) (s : chars) : outcome :=
  match atom_of n (skip s) with Got a r => Got [Grp (a ++ [Tok (fst (mult_of r))])] (snd (mult_of r)) | o => o end.
Lemma formula_S n s : formula (S n) s =
  match part_of n s with
  | Got p r => match formula n r with Got l r' => Got (p ++ l) r' | Fail => Got p r | Out => Out end
  | o => o
  end.
Proof.
  cbn [formula]. unfold part_of. fold (atom_of n (skip s)). destruct (atom_of n (skip s)) as [| |a r]; try reflexivity.
  unfold mult_of. destruct (fnumber (skip r)) as [[m r']|]; reflexivity.
Qed.

(* ---- lengths ---- *)
Lemma element_spec s e r : element s = Some (e, r) -> symbol e /\ s = e ++ r.
Proof.
  destruct s as [|c s]; [discriminate|]. cbn [element]. destruct (upper c) eqn:U; [|discriminate]. destruct s as [|d s].
  - injection 1 as <- <-. split; [now constructor|reflexivity].
  - destruct (lower d) eqn:L; injection 1 as <- <-; (split; [now constructor|reflexivity]).
Qed.
Lemma element_none c s : upper c = false -> element (c :: s) = None.
Proof. intros H. cbn [element]. now rewrite H. Qed.
Lemma fnumber_spec s m r : fnumber s = Some (m, r) -> s = m ++ r /\ exists q, numeral m q.
Proof.
  unfold fnumber. destruct (span_split s) as (a & t & -> & -> & Ha & Ht). destruct a as [|x a].
  - destruct t as [|c t]; [discriminate|]. cbn [app] in *. destruct (ascii_dec c point) as [->|]; [|discriminate].
    destruct (span_split t) as (b & u & -> & -> & Hb & _). destruct b as [|y b]; [discriminate|]. injection 1 as <- <-. split; [reflexivity|]. eexists. constructor; [discriminate|assumption].
  - destruct t as [|c t].
    + injection 1 as <- <-. split; [reflexivity|]. eexists. constructor; [discriminate|assumption].
    + destruct (ascii_dec c point) as [->|].
      * destruct (span_split t) as (b & u & -> & -> & Hb & _). injection 1 as <- <-. split; [cbn [app]; now rewrite <- app_assoc|]. eexists. apply (num_dec (x :: a) b); [discriminate|assumption|assumption].
      * injection 1 as <- <-. split; [reflexivity|]. eexists. constructor; [discriminate|assumption].
Qed.
Lemma mult_spec r : exists s q, multiplier s q /\ r = s ++ snd (mult_of r) /\ numeral (fst (mult_of r)) q.
Proof.
  unfold mult_of. destruct (fnumber (skip r)) as [[m r']|] eqn:E.
  - apply fnumber_spec in E as (E & q & Hq). destruct (skip_split r) as (w & Hw & Er). exists (w ++ m), q. cbn [fst snd]. split; [now constructor|]. split; [|assumption].
    rewrite Er, E. now rewrite app_assoc.
  - exists [], 1%Qc. split; [constructor|]. split; [reflexivity|]. apply (num_int [one]); [discriminate|]. constructor; [reflexivity|constructor].
Qed.
Lemma symbol_length s : symbol s -> 1 <= length s.
Proof. intros [|]; cbn; lia. Qed.

Lemma sound n : forall s l r, formula n s = Got l r -> exists s0 f, s = s0 ++ r /\ writes s0 f /\ lshows l f /\ length r < length s.
Proof.
  induction n as [|n IH]; intros s l r; [discriminate|]. rewrite formula_S.
  assert (forall p r', part_of n s = Got p r' -> exists s0 p0 x, p = [x] /\ s = s0 ++ r' /\ writes_part s0 p0 /\ shows x p0 /\ length r' < length s) as HP.
  { intros p r'. unfold part_of. destruct (skip_split s) as (w & Hw & Es). destruct (atom_of n (skip s)) as [| |a t] eqn:EA; [discriminate|discriminate|].
    injection 1 as <- <-. destruct (mult_spec t) as (ms & q & Hms & Et & Hq). unfold atom_of in EA. destruct (element (skip s)) as [[e u]|] eqn:EE.
    - injection EA as <- <-. apply element_spec in EE as [He EE]. exists (w ++ e ++ ms), (El e q). eexists. split; [reflexivity|].
      split; [|split; [now constructor|split; [now constructor|]]].
      + rewrite Es, EE. rewrite Et at 1. now rewrite <- !app_assoc.
      + rewrite Es, EE. rewrite Et at 2. rewrite !app_length. apply symbol_length in He. lia.
    - destruct (skip s) as [|c s'] eqn:K; [discriminate|]. destruct (ascii_dec c lpar) as [->|]; [|discriminate].
      destruct (formula n s') as [| |l' r2] eqn:F; [discriminate|discriminate|]. destruct (skip r2) as [|c' r3] eqn:K2; [discriminate|].
      destruct (ascii_dec c' rpar) as [->|]; [|discriminate]. injection EA as <- <-. destruct (IH _ _ _ F) as (s0 & f & -> & Hf & Hl & _).
      destruct (skip_split r2) as (w' & Hw' & E2). rewrite K2 in E2. exists (w ++ lpar :: s0 ++ w' ++ rpar :: ms), (Gr f q). eexists. split; [reflexivity|].
      assert (s = (w ++ lpar :: s0 ++ w' ++ rpar :: ms) ++ snd (mult_of r3)) as E.
      { rewrite Es, E2. rewrite Et at 1. repeat (rewrite <- ?app_assoc; cbn [app]). reflexivity. }
      split; [exact E|]. split; [now constructor|]. split; [now constructor|]. rewrite E at 1. rewrite !app_length. cbn [length]. lia. }
  destruct (part_of n s) as [| |p t] eqn:EP; [discriminate|discriminate|]. destruct (HP p t eq_refl) as (s0 & p0 & x & -> & Es & Wp & Sp & Lp).
  destruct (formula n t) as [| |l' r'] eqn:F; [discriminate| |]; injection 1 as <- <-.
  - exists s0, [p0]. split; [assumption|]. split; [now constructor|]. split; [now constructor|assumption].
  - destruct (IH _ _ _ F) as (s1 & f & -> & Hf & Hl & HL). exists (s0 ++ s1), (p0 :: f). split; [now rewrite <- app_assoc|]. split; [now constructor|]. split; [now constructor|].
    rewrite Es, app_length. rewrite app_length in *. lia.
Qed.
Lemma fuelled n : forall s, length s < n -> formula n s <> Out.
Proof.
  induction n as [|n IH]; intros s H; [lia|]. rewrite formula_S.
  assert (part_of n s <> Out /\ forall p r, part_of n s = Got p r -> length r < length s) as [H1 H2].
  { unfold part_of. assert (L := skip_length s). destruct (atom_of n (skip s)) as [| |a t] eqn:EA.
    - exfalso. unfold atom_of in EA. destruct (element (skip s)) as [[e u]|]; [discriminate|]. destruct (skip s) as [|c s'] eqn:K; [discriminate|].
      destruct (ascii_dec c lpar); [|discriminate]. cbn [length] in L. specialize (IH s' ltac:(lia)). destruct (formula n s') as [| |l' r2]; [contradiction|discriminate|].
      destruct (skip r2) as [|c' r3]; [discriminate|]. destruct (ascii_dec c' rpar); discriminate.
    - split; discriminate.
    - split; [discriminate|]. intros p r. injection 1 as <- <-. destruct (mult_spec t) as (ms & q & _ & Et & _).
      assert (length (snd (mult_of t)) <= length t) by (rewrite Et at 2; rewrite app_length; lia). enough (length t < length s) by lia.
      unfold atom_of in EA. destruct (element (skip s)) as [[e u]|] eqn:EE.
      + injection EA as <- <-. apply element_spec in EE as [He EE]. rewrite EE, app_length in L. apply symbol_length in He. lia.
      + destruct (skip s) as [|c s'] eqn:K; [discriminate|]. destruct (ascii_dec c lpar); [|discriminate]. cbn [length] in L.
        destruct (formula n s') as [| |l' r2] eqn:F; [discriminate|discriminate|]. destruct (skip r2) as [|c' r3] eqn:K2; [discriminate|].
        destruct (ascii_dec c' rpar); [|discriminate]. injection EA as <- <-. destruct (sound _ _ _ _ F) as (_ & _ & _ & _ & _ & LL).
        assert (L2 := skip_length r2). rewrite K2 in L2. cbn [length] in L2. lia. }
  destruct (part_of n s) as [| |p r] eqn:EP; [contradiction|discriminate|]. specialize (H2 _ _ eq_refl). specialize (IH r ltac:(lia)).
  destruct (formula n r); [contradiction|discriminate|discriminate].
Qed.

(* ---- the other way ---- *)
Definition ends (t : chars) : Prop :=
  match t with c :: _ => lower c = false /\ digit c = false /\ c <> point | [] => True end /\
  match skip t with c :: _ => digit c = false /\ c <> point | [] => True end.
Definition stops (t : chars) : Prop := ends t /\ match skip t with c :: _ => upper c = false /\ c <> lpar | [] => True end.

Scheme writes_mind := Induction for writes Sort Prop with writes_part_mind := Induction for writes_part Sort Prop.
Combined Scheme writes_ind2 from writes_mind, writes_part_mind.
Lemma part_starts s p : writes_part s p -> exists w c s', s = w ++ c :: s' /\ blanks w /\ (upper c = true \/ c = lpar).
Proof.
  intros [w s0 m q Hw Hs Hm|w s0 w' m f q Hw Hf Hw' Hm].
  - destruct Hs as [c U|c d U L]; [exists w, c, m|exists w, c, (d :: m)]; auto.
  - exists w, lpar, (s0 ++ w' ++ rpar :: m). auto.
Qed.
Lemma writes_starts s f : writes s f -> exists w c s', s = w ++ c :: s' /\ blanks w /\ (upper c = true \/ c = lpar).
Proof.
  intros [s0 p H|s0 p t f0 H _]; destruct (part_starts _ _ H) as (w & c & s' & -> & Hw & Hc).
  - exists w, c, s'. auto.
  - exists w, c, (s' ++ t). rewrite <- app_assoc. auto.
Qed.
Lemma starts_ends w c t : blanks w -> upper c = true \/ c = lpar -> ends (w ++ c :: t).
Proof.
  intros Hw Hc. assert (lower c = false /\ digit c = false /\ c <> point /\ blank c = false) as (L & D & P & B).
  { destruct Hc as [U| ->]; [destruct (upper_facts c U) as (?&?&?&?&?&?&?); auto|vm_compute; intuition discriminate]. }
  split.
  - destruct w as [|b w]; cbn [app]; [auto|]. inversion_clear Hw. destruct (blank_facts b H) as (?&?&?&?&?&?&?). auto.
  - rewrite skip_blanks, skip_head by assumption. auto.
Qed.
Lemma stop_fail n t : stops t -> formula (S n) t = Fail.
Proof.
  intros [_ H]. rewrite formula_S. unfold part_of, atom_of. destruct (skip t) as [|c s']; [reflexivity|]. destruct H as [U L]. rewrite element_none by assumption.
  destruct (ascii_dec c lpar); [contradiction|reflexivity].
Qed.
Lemma fnumber_numeral m q t : numeral m q -> match t with c :: _ => digit c = false /\ c <> point | [] => True end -> fnumber (m ++ t) = Some (m, t).
Proof.
  intros Hm Ht. assert (match t with c :: _ => digit c = false | [] => True end) as Hd by (destruct t; [auto|apply Ht]).
  unfold fnumber. destruct Hm as [a Ha Da|a b Ha Da Db|b Hb Db].
  - rewrite span_app by assumption. destruct a as [|x a]; [contradiction|]. destruct t as [|c t]; [reflexivity|]. destruct (ascii_dec c point) as [->|]; [now destruct Ht|]. reflexivity.
  - rewrite <- app_assoc. cbn [app]. rewrite (span_app a) by (try assumption; apply point_facts). destruct a as [|x a]; [contradiction|]. destruct (ascii_dec point point) as [_|]; [|contradiction].
    now rewrite span_app.
  - cbn [app span]. rewrite (proj1 point_facts). destruct (ascii_dec point point) as [_|]; [|contradiction]. rewrite span_app by assumption. now destruct b.
Qed.
Lemma numeral_starts m q : numeral m q -> exists c m', m = c :: m' /\ blank c = false /\ lower c = false.
Proof.
  intros [a Ha Da|a b Ha Da Db|b Hb Db].
  - destruct a as [|c a]; [contradiction|]. inversion_clear Da. exists c, a. destruct (digit_facts c H) as (?&?&?&?). auto.
  - destruct a as [|c a]; [contradiction|]. inversion_clear Da. exists c, (a ++ point :: b). destruct (digit_facts c H) as (?&?&?&?). auto.
  - exists point, b. repeat split; apply point_facts.
Qed.
Lemma mult_parsed ms q : multiplier ms q -> exists m, numeral m q /\ forall t, ends t -> mult_of (ms ++ t) = (m, t).
Proof.
  intros [|w s q' Hw Hs].
  - exists [one]. split; [apply (num_int [one]); [discriminate|]; constructor; [reflexivity|constructor]|]. intros t [H1 H2]. unfold mult_of. cbn [app].
    assert (fnumber (skip t) = None) as ->; [|reflexivity].
    unfold fnumber. destruct (skip t) as [|c s]; [reflexivity|]. destruct H2 as [D P]. cbn [span]. rewrite D. destruct (ascii_dec c point); [contradiction|reflexivity].
  - exists s. split; [assumption|]. intros t [H1 H2]. unfold mult_of. rewrite <- app_assoc, skip_blanks by assumption. destruct (numeral_starts s q' Hs) as (c & m' & -> & B & _). cbn [app]. rewrite skip_head by assumption.
    change (c :: m' ++ t) with ((c :: m') ++ t). rewrite (fnumber_numeral _ q'); [reflexivity|assumption|]. destruct t; [exact I|]. destruct H1 as (_ & ? & ?). auto.
Qed.
Lemma mult_head ms q t : multiplier ms q -> ends t -> match ms ++ t with c :: _ => lower c = false | [] => True end.
Proof.
  intros [|w s q' Hw Hs] [H1 _]; [destruct t; [auto|apply H1]|]. destruct w as [|b w].
  - destruct (numeral_starts s q' Hs) as (c & m' & -> & _ & L). exact L.
  - inversion_clear Hw. cbn [app]. now apply blank_facts.
Qed.
Lemma rpar_stops w t : blanks w -> stops (w ++ rpar :: t).
Proof.
  intros Hw. destruct rpar_facts as (D & U & L & B & P & Q). split; [split|]; rewrite ?skip_blanks, ?skip_head by assumption; auto.
  destruct Hw as [|b w H]; cbn [app]; [auto|]. destruct (blank_facts b H) as (?&?&?&?&?&?&?). auto.
Qed.
Lemma complete :
  (forall s f, writes s f -> exists l, lshows l f /\ forall n t, stops t -> length (s ++ t) < n -> formula n (s ++ t) = Got l t) /\
  (forall s p, writes_part s p -> exists x, shows x p /\ forall n t, ends t -> length (s ++ t) <= n -> part_of n (s ++ t) = Got [x] t).
Proof.
  apply writes_ind2.
  - intros s p Hp (x & Hx & IH). exists [x]. split; [now constructor|]. intros n t Ht Hn. destruct n as [|n]; [lia|].
    rewrite formula_S, (IH n t (proj1 Ht)) by lia. destruct n as [|n].
    + exfalso. destruct (part_starts _ _ Hp) as (w & c & s' & -> & _). rewrite !app_length in Hn. cbn [length] in Hn. lia.
    + now rewrite stop_fail.
  - intros s p u f Hp (x & Hx & IHp) Hf (l & Hl & IHf). exists (x :: l). split; [now constructor|]. intros n t Ht Hn. rewrite <- app_assoc in *. destruct n as [|n]; [lia|].
    destruct (writes_starts _ _ Hf) as (w & c & u' & -> & Hw & Hc). destruct (part_starts _ _ Hp) as (w0 & c0 & s' & -> & _).
    assert (ends ((w ++ c :: u') ++ t)) as HE by (rewrite <- app_assoc; now apply starts_ends).
    rewrite formula_S, (IHp n _ HE) by lia. rewrite IHf; [reflexivity|assumption|]. rewrite !app_length in *; cbn [length] in *; lia.
  - intros w s m q Hw Hs Hm. destruct (mult_parsed m q Hm) as (tok & Hq & HM). exists (Grp [Tok s; Tok tok]). split; [now constructor|]. intros n t Ht Hn.
    assert (HH := mult_head m q t Hm Ht). unfold part_of. rewrite <- !app_assoc, skip_blanks by assumption.
    assert (atom_of n (skip (s ++ m ++ t)) = Got [Tok s] (m ++ t)) as ->; [|now rewrite HM].
    unfold atom_of. destruct Hs as [c U|c d U L]; destruct (upper_facts c U) as (_ & _ & B & _); cbn [app]; rewrite skip_head by assumption; cbn [element]; rewrite U.
    + destruct (m ++ t) as [|x y]; [reflexivity|]. now rewrite HH.
    + now rewrite L.
  - intros w s w' m f q Hw Hf (l & Hl & IH) Hw' Hm. destruct (mult_parsed m q Hm) as (tok & Hq & HM). exists (Grp [Grp l; Tok tok]). split; [now constructor|]. intros n t Ht Hn.
    repeat (rewrite <- ?app_assoc in *; cbn [app] in * ).
    assert (stops (w' ++ rpar :: m ++ t)) as HS by now apply rpar_stops.
    assert (formula n (s ++ w' ++ rpar :: m ++ t) = Got l (w' ++ rpar :: m ++ t)) as El.
    { apply IH; [assumption|]. rewrite !app_length in *. cbn [length] in *. rewrite !app_length in *. cbn [length] in *. rewrite !app_length in *. lia. }
    unfold part_of. rewrite skip_blanks by assumption. rewrite skip_head by apply lpar_facts.
    unfold atom_of. rewrite element_none by apply lpar_facts. destruct (ascii_dec lpar lpar) as [_|]; [|contradiction]. rewrite El.
    rewrite skip_blanks, skip_head by (try assumption; apply rpar_facts). destruct (ascii_dec rpar rpar) as [_|]; [|contradiction]. cbn [app]. now rewrite HM.
Qed.

(* ---- eval ---- *)
Lemma eval_terminates s : eval s <> None.
Proof. unfold eval. assert (H := fuelled (S (length s)) s ltac:(lia)). destruct (formula _ s); [contradiction|discriminate|discriminate]. Qed.
Lemma fuel_enough s f : writes s f -> exists l d, lshows l f /\ counts_of f d /\ forall t, stops t ->
  formula (S (length (s ++ t))) (s ++ t) = Got l t /\ eval (s ++ t) = Some (Ok d).
Proof.
  intros Hf. destruct (proj1 complete s f Hf) as (l & Hl & HF). destruct (evaluated_top l f Hl) as (d & Ed & Hd). exists l, d. split; [assumption|]. split; [assumption|].
  intros t Ht. assert (E := HF (S (length (s ++ t))) t Ht ltac:(lia)). split; [exact E|]. unfold eval. now rewrite E, Ed.
Qed.
Lemma blanks_stop w : blanks w -> stops w.
Proof.
  intros H. assert (skip w = []) as E by (rewrite <- (app_nil_r w); now rewrite skip_blanks). split; [split|]; rewrite ?E; auto.
  destruct H as [|b w H]; [auto|]. destruct (blank_facts b H) as (?&?&?&?&?&?&?). auto.
Qed.
Lemma eval_writes s f w : writes s f -> blanks w -> exists d, eval (s ++ w) = Some (Ok d) /\ counts_of f d.
Proof. intros Hf Hw. destruct (fuel_enough s f Hf) as (l & d & _ & Hd & H). exists d. split; [now apply H, blanks_stop|assumption]. Qed.
Lemma eval_prefix s d : eval s = Some (Ok d) -> exists s0 r f, s = s0 ++ r /\ writes s0 f /\ counts_of f d.
Proof.
  unfold eval. destruct (formula _ s) as [| |l r] eqn:F; [discriminate|discriminate|]. destruct (sound _ _ _ _ F) as (s0 & f & E & Hf & Hl & _).
  destruct (evaluated_top l f Hl) as (d' & -> & Hd). injection 1 as <-. exists s0, r, f. auto.
Qed.
Lemma eval_error s e : eval s = Some (Err e) -> e = FormatError /\ forall s0 r f, s = s0 ++ r -> ~ writes s0 f.
Proof.
  unfold eval. destruct (formula (S (length s)) s) as [| |l r] eqn:F; [discriminate| |].
  - injection 1 as <-. split; [reflexivity|]. intros s0 r f -> Hf. rewrite formula_S in F.
    assert (exists s1 p s2, s0 = s1 ++ s2 /\ writes_part s1 p) as (s1 & p & s2 & -> & Hp).
    { destruct Hf as [s1 p Hp|s1 p s2 f Hp _]; [exists s1, p, []; now rewrite app_nil_r|exists s1, p, s2; auto]. }
    rewrite <- app_assoc in F. set (n := length _) in F. assert (part_of n (s1 ++ s2 ++ r) <> Fail) as HP.
    { unfold part_of. assert (atom_of n (skip (s1 ++ s2 ++ r)) <> Fail) as HA; [|destruct (atom_of _ _); [discriminate|contradiction|discriminate]].
      unfold atom_of. destruct Hp as [w s m q Hw Hs Hm|w s w' m f' q Hw Hf' Hw' Hm].
      - rewrite <- !app_assoc, skip_blanks by assumption. destruct Hs as [c U|c d U L]; destruct (upper_facts c U) as (_ & _ & B & _); cbn [app]; rewrite skip_head by assumption; cbn [element]; rewrite U.
        + destruct (m ++ s2 ++ r) as [|x y]; [discriminate|]. destruct (lower x); discriminate.
        + rewrite L. discriminate.
      - assert (stops (w' ++ rpar :: m ++ s2 ++ r)) as HS by now apply rpar_stops.
        destruct (proj1 complete _ _ Hf') as (l & Hl & HF). assert (El : formula n (s ++ w' ++ rpar :: m ++ s2 ++ r) = Got l (w' ++ rpar :: m ++ s2 ++ r)).
        { apply HF; [assumption|]. unfold n. repeat (rewrite ?app_length; cbn [length]). lia. }
        repeat (rewrite <- ?app_assoc in *; cbn [app] in * ). rewrite skip_blanks by assumption. rewrite skip_head by apply lpar_facts.
        rewrite element_none by apply lpar_facts. destruct (ascii_dec lpar lpar) as [_|]; [|contradiction].
        repeat (rewrite <- ?app_assoc in *; cbn [app] in * ). rewrite El. rewrite skip_blanks, skip_head by (try assumption; apply rpar_facts). destruct (ascii_dec rpar rpar) as [_|]; [|contradiction]. discriminate. }
    destruct (part_of n (s1 ++ s2 ++ r)) as [| |x t]; [discriminate|contradiction|]. destruct (formula n t); discriminate.
  - destruct (sound _ _ _ _ F) as (s0 & f & E & Hf & Hl & _). destruct (evaluated_top l f Hl) as (d' & -> & Hd). discriminate.
Qed.
Lemma foreign_stops c t : foreign c -> stops (c :: t).
Proof. intros (U & L & D & B & P1 & P2). split; [split|]; rewrite ?skip_head by assumption; auto. Qed.
Lemma eval_truncates s f c t : writes s f -> foreign c -> exists d, eval (s ++ c :: t) = Some (Ok d) /\ eval s = Some (Ok d) /\ counts_of f d.
Proof.
  intros Hf Hc. destruct (fuel_enough s f Hf) as (l & d & _ & Hd & H). exists d. split; [now apply H, foreign_stops|]. split; [|assumption].
  rewrite <- (app_nil_r s). apply H. apply blanks_stop. constructor.
Qed.
Lemma not_formula s f c t w : writes s f -> foreign c -> blanks w -> forall s0 g, s ++ c :: t = s0 ++ w -> ~ writes s0 g.
Proof.
  intros Hf Hc Hw s0 g E Hg. destruct (fuel_enough s f Hf) as (l & d & _ & _ & H). destruct (fuel_enough s0 g Hg) as (l' & d' & _ & _ & H').
  destruct (H _ (foreign_stops c t Hc)) as [F _]. destruct (H' w (blanks_stop w Hw)) as [F' _]. rewrite E in F. rewrite F in F'. injection F' as _ <-.
  inversion_clear Hw. destruct Hc as (_ & _ & _ & B & _). congruence.
Qed.
Lemma truncated s f c t : writes s f -> foreign c ->
  (exists d, eval (s ++ c :: t) = Some (Ok d) /\ eval s = Some (Ok d) /\ counts_of f d) /\
  forall s0 w g, s ++ c :: t = s0 ++ w -> blanks w -> ~ writes s0 g.
Proof. intros Hf Hc. split; [now apply eval_truncates|]. intros s0 w g E Hw. now apply (not_formula s f c t w). Qed.
