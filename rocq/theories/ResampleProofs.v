From Coq Require Import Lia.
From Verif Require Import Base BaseProofs QcTac ZList ZListProofs AxisModel AxisSpec AxisProofs AxisSegProofs AxisLimProofs ResampleModel ResampleSpec.
Local Open Scope Qc_scope.

Lemma lowest_spec l : forall x, In (lowest x l) (x :: l) /\ forall y, In y (x :: l) -> lowest x l <= y.
Proof.
  induction l as [|z l IH]; intros x; cbn [lowest].
  - split; [now left|]. intros y [<-|[]]. apply Qcle_refl.
  - destruct (IH (if Qc_ltb z x then z else x)) as [I L]. split.
    + destruct I as [E|I]; [|now right; right]. rewrite <- E. destruct (Qc_ltb z x); [now right; left|now left].
    + assert (B := L _ (or_introl eq_refl)). intros y [<-|[<-|Y]]; [| |apply L; now right];
      (destruct (Qc_ltb z x) eqn:E; qc_bool; [|]); generalize dependent (lowest z l); generalize dependent (lowest x l); intros; qclra.
Qed.
Lemma highest_spec l : forall x, In (highest x l) (x :: l) /\ forall y, In y (x :: l) -> y <= highest x l.
Proof.
  induction l as [|z l IH]; intros x; cbn [highest].
  - split; [now left|]. intros y [<-|[]]. apply Qcle_refl.
  - destruct (IH (if Qc_ltb x z then z else x)) as [I L]. split.
    + destruct I as [E|I]; [|now right; right]. rewrite <- E. destruct (Qc_ltb x z); [now right; left|now left].
    + assert (B := L _ (or_introl eq_refl)). intros y [<-|[<-|Y]]; [| |apply L; now right];
      (destruct (Qc_ltb x z) eqn:E; qc_bool; [|]); generalize dependent (highest z l); generalize dependent (highest x l); intros; qclra.
Qed.
Lemma np_min_spec l : l <> [] -> exists m, np_min l = Ok m /\ In m l /\ forall y, In y l -> m <= y.
Proof. destruct l as [|x l]; [congruence|]. intros _. destruct (lowest_spec l x) as [I L]. eexists. split; [reflexivity|]. auto. Qed.
Lemma np_max_spec l : l <> [] -> exists m, np_max l = Ok m /\ In m l /\ forall y, In y l -> y <= m.
Proof. destruct l as [|x l]; [congruence|]. intros _. destruct (highest_spec l x) as [I L]. eexists. split; [reflexivity|]. auto. Qed.

Lemma firsts_of lines : (forall l, In l lines -> l <> []) ->
  exists fs ls, mapM (fun l => py_get l 0) lines = Ok fs /\ mapM (fun l => py_get l (-1)) lines = Ok ls /\ (forall x, In x fs <-> begins lines x) /\ (forall x, In x ls <-> ends lines x) /\ length fs = length lines /\ length ls = length lines.
Proof.
  induction lines as [|l lines IH]; intros N.
  - exists [], []. split; [reflexivity|]. split; [reflexivity|]. unfold begins, ends. split; [|split; [|split; reflexivity]]; intros x; (split; [intros []|intros (l & [] & _)]).
  - destruct (IH ltac:(intros; apply N; now right)) as (fs & ls & E1 & E2 & F & L & Lf & Ll).
    assert (Nl := N l (or_introl eq_refl)). assert (P : (0 < plen l)%Z) by (unfold plen; destruct l; [congruence|cbn [length]; lia]).
    destruct (point l 0) as [a|] eqn:Ea. 2:{ exfalso. destruct l; [congruence|discriminate]. }
    destruct (point l (plen l - 1)) as [b|] eqn:Eb. 2:{ exfalso. revert Eb. unfold point. destruct (Z.ltb_spec (plen l - 1) 0); [lia|]. intros Q. apply nth_error_None in Q. unfold plen in *. lia. }
    exists (a :: fs), (b :: ls). cbn [mapM]. rewrite (py_get_point _ 0 a) by (try lia; exact Ea).
    rewrite (py_get_point_neg _ (-1) b) by (try lia; replace (-1 + plen l)%Z with (plen l - 1)%Z by lia; exact Eb). rewrite E1, E2. cbn [bind].
    split; [reflexivity|]. split; [reflexivity|]. split; [|split; [|cbn [length]; split; congruence]].
    + intros x. cbn [In]. rewrite F. unfold begins. split.
      * intros [<-|(l' & I & Q)]; [exists l; split; [now left|exact Ea]|exists l'; split; [now right|exact Q]].
      * intros (l' & [<-|I] & Q); [left; congruence|right; eauto].
    + intros x. cbn [In]. rewrite L. unfold ends. split.
      * intros [<-|(l' & I & Q)]; [exists l; split; [now left|exact Eb]|exists l'; split; [now right|exact Q]].
      * intros (l' & [<-|I] & Q); [left; congruence|right; eauto].
Qed.
Lemma upto_pos D x y : 0 < D -> (upto D x y <-> x <= y).
Proof.
  intros H. unfold upto. assert (N : D <> 0) by (apply not_eq_sym, Qclt_not_eq, H). assert (E : y - x = (y - x) / D * D) by (field; exact N). split; intros Q.
  - assert (0 <= (y - x) / D * D) by (generalize dependent ((y - x) / D); intros; qcnra). rewrite <- E in H0. qclra.
  - destruct (Qclt_le_dec ((y - x) / D) 0) as [C|C]; [|exact C]. exfalso. assert ((y - x) / D * D < 0) by (generalize dependent ((y - x) / D); intros; qcnra). rewrite <- E in H0. qclra.
Qed.
Lemma upto_neg D x y : D < 0 -> (upto D x y <-> y <= x).
Proof.
  intros H. assert (P : 0 < - D) by qclra. assert (N : D <> 0) by (intros ->; revert H; apply Qclt_irrefl || qclra).
  rewrite <- (upto_pos (- D) y x P). unfold upto. replace ((x - y) / - D) with ((y - x) / D); [reflexivity|]. field. split; [|exact N]. intros Q. apply N. qclra.
Qed.
Lemma measured_limits lines crop D : lines <> [] -> (forall l, In l lines -> l <> []) -> D <> 0 ->
  exists v w, measured lines crop (Qc_ltb 0 D) = Ok (v, w) /\ limits lines crop D v w.
Proof.
  intros N1 N2 ND. destruct (firsts_of lines N2) as (fs & ls & E1 & E2 & F & L & Lf & Ll).
  assert (Nf : fs <> []) by (destruct fs, lines; cbn in *; congruence). assert (Nl : ls <> []) by (destruct ls, lines; cbn in *; congruence).
  unfold measured. rewrite E1, E2. cbn [bind].
  destruct (np_min_spec fs Nf) as (a & A1 & A2 & A3). destruct (np_max_spec fs Nf) as (b & B1 & B2 & B3).
  destruct (np_min_spec ls Nl) as (c & C1 & C2 & C3). destruct (np_max_spec ls Nl) as (e & D1 & D2 & D3).
  destruct (Qc_ltb 0 D) eqn:S; qc_bool.
  - assert (U := fun x y => upto_pos D x y S). destruct crop; rewrite ?A1, ?B1, ?C1, ?D1; cbn [bind]; do 2 eexists; (split; [reflexivity|]); (split; [now apply F|]); (split; [now apply L|]);
      (split; intros z Hz; apply U; [apply F in Hz|apply L in Hz]; auto).
  - assert (S' : D < 0) by (apply Qcle_lt_or_eq in S as [S|S]; [exact S|congruence]).
    assert (U := fun x y => upto_neg D x y S'). destruct crop; rewrite ?A1, ?B1, ?C1, ?D1; cbn [bind]; do 2 eexists; (split; [reflexivity|]); (split; [now apply F|]); (split; [now apply L|]);
      (split; intros z Hz; apply U; [apply F in Hz|apply L in Hz]; auto).
Qed.
Lemma upto_antisym D x y : D <> 0 -> upto D x y -> upto D y x -> x = y.
Proof.
  intros N. unfold upto. intros A B. assert (E : (x - y) / D = - ((y - x) / D)) by (field; exact N). rewrite E in B.
  assert (Z : (y - x) / D = 0) by (clear E; generalize dependent ((y - x) / D); intros; apply Qcle_antisym; qclra).
  assert (E2 : y - x = (y - x) / D * D) by (field; exact N). rewrite Z in E2. clear - E2. assert (y - x = 0) by (rewrite E2; ring). clear E2. qclra.
Qed.
Lemma limits_unique lines crop D v w v' w' : D <> 0 -> limits lines crop D v w -> limits lines crop D v' w' -> v = v' /\ w = w'.
Proof.
  intros N (A1 & A2 & A3 & A4) (B1 & B2 & B3 & B4). specialize (A3 _ B1). specialize (A4 _ B2). specialize (B3 _ A1). specialize (B4 _ A2).
  destruct crop; split; apply (upto_antisym D); assumption.
Qed.

Lemma prog_affine x s d n f a b : progression x s d n -> (forall q, f q = q * a + b) -> progression (map f x) (s * a + b) (d * a) n.
Proof.
  intros (L & P) F. split; [now rewrite map_length|]. intros i Hi. specialize (P i Hi). unfold point in *. destruct (i <? 0)%Z; [discriminate|].
  rewrite nth_error_map, P. cbn [option_map]. apply (f_equal Some). rewrite F. ring.
Qed.
Lemma factory_prog x s d n : d <> 0 -> (2 <= n)%Z -> progression x s d n -> exists b, factory x = Ok b /\ a_values b = x /\ regular_axis b s d n.
Proof.
  intros N Hn P. unfold factory. rewrite (simplify_prog 0 x s d n (Qcle_refl 0) Hn P). eexists. split; [reflexivity|]. split; [reflexivity|].
  split; [exact P|]. split; [exact Hn|]. split; [exact N|]. cbn [a_form]. auto.
Qed.
Lemma prog_nonempty x s d n : (0 < n)%Z -> progression x s d n -> x <> [].
Proof. intros H (L & _) ->. cbn in L. lia. Qed.
Lemma ltb_step s D n : (2 <= n)%Z -> Qc_ltb s (s + Qc_of_Z (n - 1) * D) = Qc_ltb 0 D.
Proof.
  intros Hn. assert (P : Qc_of_Z 1 <= Qc_of_Z (n - 1)) by (apply Qc_of_Z_le; lia). change (Qc_of_Z 1) with 1 in P.
  destruct (Qc_ltb 0 D) eqn:E; qc_bool.
  - apply Qc_ltb_lt. generalize dependent (Qc_of_Z (n - 1)). intros. qcnra.
  - apply not_true_iff_false. intros Q. apply Qc_ltb_lt in Q. generalize dependent (Qc_of_Z (n - 1)). intros. qcnra.
Qed.
Lemma two_nz : Qc_of_Z 2 <> 0. Proof. intros H. apply (f_equal this) in H. discriminate. Qed.
Lemma mult_nz (a b : Qc) : a <> 0 -> b <> 0 -> a * b <> 0.
Proof. intros A B H. apply Qcmult_integral in H. tauto. Qed.

(* what is common to all offsets: the limits v, w on a regular axis of encoder positions *)
Lemma encoder_ok position lines r off crop s d n v w o :
  progression (a_values position) s d n -> (2 <= n)%Z -> d <> 0 -> r <> 0 -> lines <> [] -> (forall l, In l lines -> l <> []) ->
  limits lines crop (d * r) v w ->
  o = match given off with None => (v + w) / Qc_of_Z 2 - (s * r + (s * r + Qc_of_Z (n - 1) * (d * r))) / Qc_of_Z 2 | Some o => o end ->
  (v - (s * r + o + Qc_of_Z (n - 1) * (d * r))) / (d * r) < 0 ->
  exists k m, covers (s * r + o - Qc_of_Z k * (d * r)) v (- (d * r)) /\ covers (s * r + o + Qc_of_Z (m - k - 1) * (d * r)) w (d * r) /\
    ((m <= 0)%Z /\ encoder position lines r off crop = Ok (Skipped position) \/
     (0 < m)%Z /\ exists p e, encoder position lines r off crop = (match off with Plain_ _ => Err AttributeError | _ => Ok (Resampled p e o) end) /\
       progression (a_values p) (s - Qc_of_Z k * d) d m /\ progression (a_values e) ((s - Qc_of_Z k * d) * r + o) (d * r) m).
Proof.
  intros P Hn Nd Nr Nl Nl' Lim Eo Hv. assert (ND := mult_nz d r Nd Nr).
  set (D := d * r) in *.
  assert (P0 : progression (map (fun x => x * r) (a_values position)) (s * r + 0) D n) by (apply (prog_affine _ _ _ _ _ r 0 P); intros; ring).
  replace (s * r + 0) with (s * r) in P0 by ring.
  destruct (measured_limits lines crop D Nl Nl' ND) as (v0 & w0 & Em & L0). destruct (limits_unique _ _ _ _ _ _ _ ND L0 Lim) as [-> ->]. clear L0.
  (* the axis of encoder positions on which the limits are taken *)
  assert (X : exists enc, regular_axis enc (s * r + o) D n /\
    encoder position lines r off crop =
      (let! new := newlimits enc v w in
       match new with
       | None => Ok (Skipped position)
       | Some enc => let! p := factory (map (fun x => (x - o) / r) (a_values enc)) in match off with Plain_ _ => Err AttributeError | _ => Ok (Resampled p enc o) end
       end)).
  { unfold encoder. destruct (given off) as [o'|] eqn:G.
    - subst o'. assert (P1 : progression (map (fun x => x + o) (map (fun x => x * r) (a_values position))) (s * r * 1 + o) (D * 1) n) by (apply (prog_affine _ _ _ _ _ 1 o P0); intros; ring).
      replace (s * r * 1 + o) with (s * r + o) in P1 by ring. replace (D * 1) with D in P1 by ring.
      destruct (factory_prog _ _ _ _ ND Hn P1) as (enc & E & _ & R). exists enc. split; [exact R|]. rewrite E. cbn [bind].
      destruct (reg_start _ _ _ _ R) as [-> _]. destruct (reg_end _ _ _ _ R) as [-> _]. cbn [bind]. rewrite ltb_step by exact Hn. rewrite Em. reflexivity.
    - destruct (factory_prog _ _ _ _ ND Hn P0) as (enc & E & V & R).
      assert (P1 : progression (map (fun x => x + o) (a_values enc)) (s * r * 1 + o) (D * 1) n) by (rewrite V; apply (prog_affine _ _ _ _ _ 1 o P0); intros; ring).
      replace (s * r * 1 + o) with (s * r + o) in P1 by ring. replace (D * 1) with D in P1 by ring.
      destruct (factory_prog _ _ _ _ ND Hn P1) as (enc1 & E1 & _ & R1). exists enc1. split; [exact R1|]. rewrite E. cbn [bind].
      destruct (reg_start _ _ _ _ R) as [-> _]. destruct (reg_end _ _ _ _ R) as [-> _]. cbn [bind]. rewrite ltb_step by exact Hn. rewrite Em. cbn [bind]. rewrite <- Eo, E1. reflexivity. }
  destruct X as (enc & R & ->). destruct (newlimits_ok enc (s * r + o) D n v w R Hv) as (k & m & C1 & C2 & [(M & E)|(M & e & E & Pe & _)]); exists k, m; (split; [exact C1|]); (split; [exact C2|]).
  - left. split; [exact M|]. rewrite E. reflexivity.
  - right. split; [exact M|]. rewrite E. cbn [bind].
    assert (Pp : progression (map (fun x => (x - o) / r) (a_values e)) ((s * r + o - Qc_of_Z k * D) * / r + - o / r) (D * / r) m) by (apply (prog_affine _ _ _ _ _ (/ r) (- o / r) Pe); intros; field; exact Nr).
    replace ((s * r + o - Qc_of_Z k * D) * / r + - o / r) with (s - Qc_of_Z k * d) in Pp by (unfold D; field; exact Nr).
    replace (D * / r) with d in Pp by (unfold D; field; exact Nr).
    destruct (simplify_exact _ (prog_nonempty _ _ _ _ M Pp)) as (p & Ep & Vp & _). unfold factory. rewrite Ep. cbn [bind]. exists p, e. split; [destruct off; reflexivity|].
    rewrite Vp. split; [exact Pp|]. replace ((s - Qc_of_Z k * d) * r + o) with (s * r + o - Qc_of_Z k * D) by (unfold D; ring). exact Pe.
Qed.
Lemma covers_start a k D v : D <> 0 -> covers (a - k * D) v (- D) -> 0 <= (v - a) / D + k /\ (v - a) / D + k < 1.
Proof.
  intros N. unfold covers. assert (N' : - D <> 0) by (intros H; apply N; clear - H; qclra). replace ((a - k * D - v) / - D) with ((v - a) / D + k) by (field; tauto). auto.
Qed.
Lemma covers_end a k D w : D <> 0 -> covers (a + k * D) w D -> 0 <= (a - w) / D + k /\ (a - w) / D + k < 1.
Proof. intros N. unfold covers. replace ((a + k * D - w) / D) with ((a - w) / D + k) by (field; exact N). auto. Qed.

(* without an offset: as many points are added or removed at both sides *)
Theorem centred position s d n r lines crop v w : scanned position s d n r lines -> limits lines crop (d * r) v w -> 0 < (w - v) / (d * r) + Qc_of_Z (n - 1) ->
  exists k, let o := (v + w - (s + (s + Qc_of_Z (n - 1) * d)) * r) / Qc_of_Z 2 in
    covers ((s - Qc_of_Z k * d) * r + o) v (- (d * r)) /\ covers ((s + Qc_of_Z (n - 1 + k) * d) * r + o) w (d * r) /\
    ((n + 2 * k <= 0)%Z /\ encoder position lines r NoOffset crop = Ok (Skipped position) \/
     (0 < n + 2 * k)%Z /\ exists p e, encoder position lines r NoOffset crop = Ok (Resampled p e o) /\
       progression (a_values p) (s - Qc_of_Z k * d) d (n + 2 * k) /\ a_values e = map (fun x => x * r + o) (a_values p)).
Proof.
  intros (P & Hn & Nd & Nr & Nl & Nl') Lim Hv. assert (ND := mult_nz d r Nd Nr).
  set (o := (v + w - (s + (s + Qc_of_Z (n - 1) * d)) * r) / Qc_of_Z 2).
  assert (Hvo : (v - (s * r + o + Qc_of_Z (n - 1) * (d * r))) / (d * r) < 0).
  { assert (E : (v - (s * r + o + Qc_of_Z (n - 1) * (d * r))) / (d * r) = - (((w - v) / (d * r) + Qc_of_Z (n - 1)) / Qc_of_Z 2)) by (unfold o; change (Qc_of_Z 2) with (1 + 1); field; repeat split; try assumption; exact two_nz).
    rewrite E. clear E. change (Qc_of_Z 2) with (1 + 1). generalize dependent ((w - v) / (d * r) + Qc_of_Z (n - 1)). intros q Hq. assert (E : q / (1 + 1) * (1 + 1) = q) by (field; exact two_nz). generalize dependent (q / (1 + 1)). intros. qclra. }
  destruct (encoder_ok position lines r NoOffset crop s d n v w o P Hn Nd Nr Nl Nl' Lim) as (k & m & C1 & C2 & H); [|exact Hvo|].
  { cbn [given]. unfold o. change (Qc_of_Z 2) with (1 + 1). field. exact two_nz. }
  assert (M : m = (n + 2 * k)%Z).
  { apply covers_start in C1; [|exact ND]. apply covers_end in C2; [|exact ND].
    assert (E1 : (v - (s * r + o)) / (d * r) = (v - w) / (d * r) / Qc_of_Z 2 + Qc_of_Z (n - 1) / Qc_of_Z 2) by (unfold o; change (Qc_of_Z 2) with (1 + 1); field; repeat split; try assumption; exact two_nz).
    assert (E2 : (s * r + o - w) / (d * r) = (v - w) / (d * r) / Qc_of_Z 2 - Qc_of_Z (n - 1) / Qc_of_Z 2) by (unfold o; change (Qc_of_Z 2) with (1 + 1); field; repeat split; try assumption; exact two_nz).
    rewrite E1 in C1. rewrite E2 in C2. set (q := (v - w) / (d * r) / Qc_of_Z 2) in *. clearbody q. destruct C1 as [C1 C1']. destruct C2 as [C2 C2'].
    assert (E3 : Qc_of_Z (n - 1) = Qc_of_Z (n - 1) / Qc_of_Z 2 + Qc_of_Z (n - 1) / Qc_of_Z 2) by (change (Qc_of_Z 2) with (1 + 1); field; exact two_nz).
    set (t := Qc_of_Z (n - 1) / Qc_of_Z 2) in *. clearbody t.
    assert (A : Qc_of_Z (n - 1 + k) < Qc_of_Z (m - k - 1 + 1)) by (rewrite !Qc_of_Z_plus; change (Qc_of_Z 1) with 1; rewrite E3; clear - C1 C1' C2 C2'; generalize dependent (Qc_of_Z k); generalize dependent (Qc_of_Z (m - k - 1)); intros; qclra).
    assert (B : Qc_of_Z (m - k - 1) < Qc_of_Z (n - 1 + k + 1)) by (rewrite !Qc_of_Z_plus; change (Qc_of_Z 1) with 1; rewrite E3; clear - C1 C1' C2 C2'; generalize dependent (Qc_of_Z k); generalize dependent (Qc_of_Z (m - k - 1)); intros; qclra).
    pose proof (proj1 (Qc_of_Z_lt _ _) A). pose proof (proj1 (Qc_of_Z_lt _ _) B). lia. }
  subst m. exists k. cbv zeta. fold o. split; [|split].
  - replace ((s - Qc_of_Z k * d) * r + o) with (s * r + o - Qc_of_Z k * (d * r)) by ring. exact C1.
  - replace (n + 2 * k - k - 1)%Z with (n - 1 + k)%Z in C2 by lia. replace ((s + Qc_of_Z (n - 1 + k) * d) * r + o) with (s * r + o + Qc_of_Z (n - 1 + k) * (d * r)) by ring. exact C2.
  - destruct H as [H|(M & p & e & E & Pp & Pe)]; [left; exact H|]. right. split; [exact M|]. exists p, e. split; [exact E|]. split; [exact Pp|].
    rewrite (prog_eq _ _ _ _ Pe). assert (X : progression (map (fun x => x * r + o) (a_values p)) ((s - Qc_of_Z k * d) * r + o) (d * r) (n + 2 * k)) by (apply (prog_affine _ _ _ _ _ r o Pp); reflexivity).
    symmetry. exact (prog_eq _ _ _ _ X).
Qed.
(* with an offset *)
Theorem fixed_offset position s d n r lines crop v w off o : scanned position s d n r lines -> limits lines crop (d * r) v w -> off = Quantity_ o \/ off = Plain_ o ->
  (v - ((s + Qc_of_Z (n - 1) * d) * r + o)) / (d * r) < 0 ->
  exists k m, covers ((s - Qc_of_Z k * d) * r + o) v (- (d * r)) /\ covers ((s + Qc_of_Z (m - k - 1) * d) * r + o) w (d * r) /\
    ((m <= 0)%Z /\ encoder position lines r off crop = Ok (Skipped position) \/
     (0 < m)%Z /\ exists p e, encoder position lines r off crop = (match off with Plain_ _ => Err AttributeError | _ => Ok (Resampled p e o) end) /\
       progression (a_values p) (s - Qc_of_Z k * d) d m /\ a_values e = map (fun x => x * r + o) (a_values p)).
Proof.
  intros (P & Hn & Nd & Nr & Nl & Nl') Lim Off Hv. assert (ND := mult_nz d r Nd Nr).
  destruct (encoder_ok position lines r off crop s d n v w o P Hn Nd Nr Nl Nl' Lim) as (k & m & C1 & C2 & H).
  { destruct Off as [-> | ->]; reflexivity. }
  { replace (s * r + o + Qc_of_Z (n - 1) * (d * r)) with ((s + Qc_of_Z (n - 1) * d) * r + o) by ring. exact Hv. }
  exists k, m. split; [|split].
  - replace ((s - Qc_of_Z k * d) * r + o) with (s * r + o - Qc_of_Z k * (d * r)) by ring. exact C1.
  - replace ((s + Qc_of_Z (m - k - 1) * d) * r + o) with (s * r + o + Qc_of_Z (m - k - 1) * (d * r)) by ring. exact C2.
  - destruct H as [H|(M & p & e & E & Pp & Pe)]; [left; exact H|]. right. split; [exact M|]. exists p, e. split; [exact E|]. split; [exact Pp|].
    rewrite (prog_eq _ _ _ _ Pe). assert (X : progression (map (fun x => x * r + o) (a_values p)) ((s - Qc_of_Z k * d) * r + o) (d * r) m) by (apply (prog_affine _ _ _ _ _ r o Pp); reflexivity).
    symmetry. exact (prog_eq _ _ _ _ X).
Qed.
(* everything is within the new limits, or the new limits within everything *)
Lemma upto_trans D x y z : D <> 0 -> upto D x y -> upto D y z -> upto D x z.
Proof. intros N. unfold upto. intros A B. replace ((z - x) / D) with ((y - x) / D + (z - y) / D) by (field; exact N). generalize dependent ((y - x) / D). generalize dependent ((z - y) / D). intros. qclra. Qed.
Lemma covers_upto a v D : D <> 0 -> covers a v (- D) -> upto D a v /\ upto D v (a + D).
Proof.
  intros N C. replace a with (a - 0 * D) in C by ring. apply covers_start in C as [C C']; [|exact N]. unfold upto. replace ((a + D - v) / D) with (1 - (v - a) / D) by (field; exact N).
  generalize dependent ((v - a) / D). intros. split; qclra.
Qed.
Lemma covers_upto_end a w D : D <> 0 -> covers a w D -> upto D w a /\ upto D (a - D) w.
Proof.
  intros N C. replace a with (a + 0 * D) in C by ring. apply covers_end in C as [C C']; [|exact N]. unfold upto. replace ((w - (a - D)) / D) with (1 - (a - w) / D) by (field; exact N).
  generalize dependent ((a - w) / D). intros. split; qclra.
Qed.
Lemma upto_steps D a i j : D <> 0 -> (i <= j)%Z -> upto D (a + Qc_of_Z i * D) (a + Qc_of_Z j * D).
Proof.
  intros N H. unfold upto. replace ((a + Qc_of_Z j * D - (a + Qc_of_Z i * D)) / D) with (Qc_of_Z j - Qc_of_Z i) by (field; exact N). pose proof (proj2 (Qc_of_Z_le _ _) H) as H'. clear - H'. generalize dependent (Qc_of_Z i). generalize dependent (Qc_of_Z j). intros. qclra.
Qed.
Lemma mid_limits e a D m lines crop v w : D <> 0 -> (0 < m)%Z -> progression e a D m -> limits lines crop D v w -> covers a v (- D) -> covers (a + Qc_of_Z (m - 1) * D) w D ->
  if crop then forall i q x y, point e i = Some q -> (0 < i < m - 1)%Z -> begins lines x -> ends lines y -> upto D x q /\ upto D q y
  else exists q0 q1, point e 0 = Some q0 /\ point e (m - 1) = Some q1 /\ forall x y, begins lines x -> ends lines y -> upto D q0 x /\ upto D y q1.
Proof.
  intros N M (L & P) (_ & _ & A & B) C1 C2. apply covers_upto in C1 as [C1 C1']; [|exact N]. apply covers_upto_end in C2 as [C2 C2']; [|exact N]. destruct crop.
  - intros i q x y E Hi X Y. rewrite P in E by lia. assert (q = a + Qc_of_Z i * D) as -> by congruence. split.
    + apply (upto_trans D x v _ N (A x X)). apply (upto_trans D v (a + D) _ N C1'). replace (a + D) with (a + Qc_of_Z 1 * D) by (change (Qc_of_Z 1) with 1; ring). apply upto_steps; [exact N|lia].
    + apply (upto_trans D _ w y N); [|exact (B y Y)]. apply (upto_trans D _ (a + Qc_of_Z (m - 1) * D - D) w N); [|exact C2']. replace (a + Qc_of_Z (m - 1) * D - D) with (a + Qc_of_Z (m - 2) * D) by (rewrite !Qc_of_Z_minus; change (Qc_of_Z 2) with (1 + 1); change (Qc_of_Z 1) with 1; ring). apply upto_steps; [exact N|lia].
  - exists (a + Qc_of_Z 0 * D), (a + Qc_of_Z (m - 1) * D). split; [apply P; lia|]. split; [apply P; lia|]. intros x y X Y. split.
    + replace (a + Qc_of_Z 0 * D) with a by (change (Qc_of_Z 0) with 0; ring). exact (upto_trans D a v x N C1 (A x X)).
    + exact (upto_trans D y w _ N (B y Y) C2).
Qed.
Theorem range position s d n r lines crop v w off p e o : scanned position s d n r lines -> limits lines crop (d * r) v w ->
  match given off with None => 0 < (w - v) / (d * r) + Qc_of_Z (n - 1) | Some o => (v - ((s + Qc_of_Z (n - 1) * d) * r + o)) / (d * r) < 0 end ->
  encoder position lines r off crop = Ok (Resampled p e o) ->
  if crop then forall i q x y, point (a_values e) i = Some q -> (0 < i < plen (a_values e) - 1)%Z -> begins lines x -> ends lines y -> upto (d * r) x q /\ upto (d * r) q y
  else exists q0 q1, point (a_values e) 0 = Some q0 /\ point (a_values e) (plen (a_values e) - 1) = Some q1 /\ forall x y, begins lines x -> ends lines y -> upto (d * r) q0 x /\ upto (d * r) y q1.
Proof.
  intros Sc Lim Hv E. pose proof Sc as (P & Hn & Nd & Nr & Nl & Nl'). assert (ND := mult_nz d r Nd Nr).
  assert (X : exists a m, (0 < m)%Z /\ progression (a_values e) a (d * r) m /\ covers a v (- (d * r)) /\ covers (a + Qc_of_Z (m - 1) * (d * r)) w (d * r)).
  { destruct (given off) as [o'|] eqn:G.
    - destruct (fixed_offset position s d n r lines crop v w off o' Sc Lim) as (k & m & C1 & C2 & H); [destruct off; cbn in G; try discriminate; [right|left]; congruence|exact Hv|].
      destruct H as [(_ & H)|(M & p' & e' & E' & Pp & Ve)]; [congruence|]. rewrite E' in E. destruct off; try discriminate.
      assert (e' = e) as -> by congruence. exists ((s - Qc_of_Z k * d) * r + o'), m. split; [exact M|]. split; [|split; [exact C1|]].
      + rewrite Ve. apply (prog_affine _ _ _ _ _ r o' Pp). reflexivity.
      + replace ((s - Qc_of_Z k * d) * r + o' + Qc_of_Z (m - 1) * (d * r)) with ((s + Qc_of_Z (m - k - 1) * d) * r + o'); [exact C2|]. rewrite !Qc_of_Z_minus. ring.
    - destruct off; try discriminate. destruct (centred position s d n r lines crop v w Sc Lim Hv) as (k & H). cbv zeta in H. set (o' := (v + w - (s + (s + Qc_of_Z (n - 1) * d)) * r) / Qc_of_Z 2) in *. clearbody o'. destruct H as (C1 & C2 & H).
      destruct H as [(_ & H)|(M & p' & e' & E' & Pp & Ve)]; [congruence|]. rewrite E' in E. assert (e' = e) as -> by congruence.
      exists ((s - Qc_of_Z k * d) * r + o'), (n + 2 * k)%Z. split; [exact M|]. split; [|split; [exact C1|]].
      + rewrite Ve. apply (prog_affine _ _ _ _ _ r o' Pp). reflexivity.
      + replace ((s - Qc_of_Z k * d) * r + o' + Qc_of_Z (n + 2 * k - 1) * (d * r)) with ((s + Qc_of_Z (n - 1 + k) * d) * r + o'); [exact C2|].
        replace (n + 2 * k - 1)%Z with (n - 1 + k + k)%Z by lia. rewrite !Qc_of_Z_plus. ring. }
  destruct X as (a & m & M & Pe & C1 & C2). assert (Lm : plen (a_values e) = m) by apply Pe. rewrite Lm. apply (mid_limits _ a _ _ _ _ v w); assumption.
Qed.
(* lines that are where they are expected, up to an offset *)
Theorem undisturbed position s d n r lines crop o : scanned position s d n r lines ->
  (forall x, begins lines x -> x = s * r + o) -> (forall y, ends lines y -> y = (s + Qc_of_Z (n - 1) * d) * r + o) ->
  exists p e, encoder position lines r NoOffset crop = Ok (Resampled p e o) /\ a_values p = a_values position /\ a_values e = map (fun x => x * r + o) (a_values position).
Proof.
  intros Sc Hb He. pose proof Sc as (P & Hn & Nd & Nr & Nl & Nl'). assert (ND := mult_nz d r Nd Nr).
  destruct (measured_limits lines crop (d * r) Nl Nl' ND) as (v & w & _ & Lim). pose proof Lim as (B & E & _). apply Hb in B. apply He in E.
  destruct (centred position s d n r lines crop v w Sc Lim) as (k & H).
  { rewrite B, E. replace (((s + Qc_of_Z (n - 1) * d) * r + o - (s * r + o)) / (d * r)) with (Qc_of_Z (n - 1)) by (field; split; assumption).
    assert (Q : Qc_of_Z 0 < Qc_of_Z (n - 1)) by (apply Qc_of_Z_lt; lia). change (Qc_of_Z 0) with 0 in Q. generalize dependent (Qc_of_Z (n - 1)). intros. qclra. }
  cbv zeta in H. replace ((v + w - (s + (s + Qc_of_Z (n - 1) * d)) * r) / Qc_of_Z 2) with o in H by (rewrite B, E; change (Qc_of_Z 2) with (1 + 1); field; exact two_nz).
  destruct H as (C1 & C2 & H). rewrite B in C1. replace ((s - Qc_of_Z k * d) * r + o) with ((s * r + o) - Qc_of_Z k * (d * r)) in C1 by ring. apply covers_start in C1 as [C1 C1']; [|exact ND].
  replace ((s * r + o - (s * r + o)) / (d * r) + Qc_of_Z k) with (Qc_of_Z k) in C1, C1' by (field; split; assumption).
  assert (K : k = 0%Z). { change 0 with (Qc_of_Z 0) in C1. change 1 with (Qc_of_Z 1) in C1'. pose proof (proj1 (Qc_of_Z_le _ _) C1). pose proof (proj1 (Qc_of_Z_lt _ _) C1'). lia. }
  subst k. replace (n + 2 * 0)%Z with n in H by lia. destruct H as [(Q & _)|(_ & p & e & Ee & Pp & Ve)]; [lia|]. exists p, e. split; [exact Ee|].
  assert (V : a_values p = a_values position). { rewrite (prog_eq _ _ _ _ Pp), (prog_eq _ _ _ _ P). apply map_ext. intros i. change (Qc_of_Z 0) with 0. ring. }
  split; [exact V|]. now rewrite Ve, V.
Qed.
(* one point *)
Theorem single position x lines r off crop : a_values position = [x] -> exists er, encoder position lines r off crop = Err er.
Proof.
  intros V. assert (F : forall y, factory [y] = Ok (make_number 0 y)) by reflexivity.
  assert (L : forall y v w, exists er, newlimits (make_number 0 y) v w = Err er).
  { intros y v w. unfold newlimits, newstart. cbn [make_number start_stepsize a_form bind a_start a_values]. unfold steps_to. destruct (Qc_eqb 0 0) eqn:Z; [|qc_bool; congruence]. destruct (Qc_eqb (y - v) 0); eexists; reflexivity. }
  unfold encoder. rewrite V. cbn [map]. destruct (given off) as [o|]; rewrite F; cbn [bind make_number a_start a_end a_form a_values map];
    (destruct (measured lines crop _) as [[v w]|er]; [|eexists; reflexivity]); cbn [bind]; rewrite ?F; cbn [bind].
  - destruct (L (x * r + o) v w) as [er ->]. eexists. reflexivity.
  - match goal with |- context[newlimits (make_number 0 ?y) v w] => destruct (L y v w) as [er ->] end. eexists. reflexivity.
Qed.
(* the pieces in which the map is processed *)
Lemma in_product l ix : In ix (product l) <-> Forall2 (fun x i => In i x) l ix.
Proof.
  revert ix. induction l as [|x l IH]; intros ix; cbn [product].
  - split; [intros [<-|[]]; constructor|]. intros H. inversion H. now left.
  - rewrite in_flat_map. split.
    + intros (i & I & J). apply in_map_iff in J as (ix' & <- & J). constructor; [exact I|]. now apply IH.
    + intros H. inversion H as [|? i ? ix' I J]; subst. exists i. split; [exact I|]. apply in_map. now apply IH.
Qed.
Lemma NoDup_app_intro {A} (a b : list A) : NoDup a -> NoDup b -> (forall x, In x a -> In x b -> False) -> NoDup (a ++ b).
Proof.
  intros Na Nb D. induction a as [|x a IH]; [exact Nb|]. inversion Na as [|? ? N1 N2]; subst. cbn [app]. constructor.
  - rewrite in_app_iff. intros [H|H]; [now apply N1|]. apply (D x); [now left|exact H].
  - apply IH; [exact N2|]. intros y Y. apply D. now right.
Qed.
Lemma nodup_product l : Forall (@NoDup index) l -> NoDup (product l).
Proof.
  induction 1 as [|x l N _ IH]; cbn [product]; [constructor; [intros []|constructor]|].
  induction x as [|i x IHx]; cbn [flat_map]; [constructor|]. inversion N as [|? ? Ni Nx]; subst.
  apply NoDup_app_intro; [|now apply IHx|].
  - apply FinFun.Injective_map_NoDup; [|exact IH]. intros a b E. now inversion E.
  - intros a A B. apply in_map_iff in A as (a' & <- & _). apply in_flat_map in B as (j & J & B). apply in_map_iff in B as (b & E & _). inversion E; subst. now apply Ni.
Qed.
Theorem pieces shape encoders : length shape = length encoders ->
  NoDup (process_indices shape encoders) /\
  forall i, within (resampled_shape shape encoders) i -> exists ix, In ix (process_indices shape encoders) /\ addressed ix i /\ forall ix', In ix' (process_indices shape encoders) -> addressed ix' i -> ix' = ix.
Proof.
  intros L. split.
  - apply nodup_product. apply Forall_forall. intros x X. apply in_map_iff in X as ([n e] & <- & _). cbn [fst snd]. destruct e; [constructor; [intros []|constructor]|].
    apply FinFun.Injective_map_NoDup; [intros a b E; congruence|apply seq_NoDup].
  - unfold process_indices, resampled_shape, within, addressed. setoid_rewrite in_product. revert encoders L. induction shape as [|n shape IH]; intros [|e encoders] L; try discriminate.
    + intros i H. inversion H. exists []. split; [constructor|]. split; [constructor|]. intros ix' A _. now inversion A.
    + intros i H. cbn [combine map fst snd] in *. inversion H as [|? k ? i' K H']; subst. destruct (IH encoders ltac:(cbn in L; lia) i' H') as (ix & A & B & C). destruct e as [m|].
      * exists (All :: ix). split; [constructor; [now left|exact A]|]. split; [constructor; [exact I|exact B]|].
        intros ix' A' B'. inversion A' as [|? a ? ix'' X Y]; subst. inversion B'; subst. destruct X as [<-|[]]. f_equal. now apply C.
      * exists (At k :: ix). split; [constructor; [apply in_map; apply in_seq; lia|exact A]|]. split; [constructor; [reflexivity|exact B]|].
        intros ix' A' B'. inversion A' as [|? a ? ix'' X Y]; subst. inversion B' as [|? ? ? ? Q Q']; subst. apply in_map_iff in X as (a' & <- & _). subst a'. f_equal. now apply C.
Qed.
(* refutations *)
Definition qz (l : list Z) : list Qc := map Qc_of_Z l.
Definition axis04 : axis := make_plain 0 (qz [0; 10; 20; 30]%Z).
Theorem cropped_outside : exists p e o q x, encoder axis04 [qz [3; 13; 23; 33]%Z; qz [0; 10; 20; 30]%Z] 1 NoOffset true = Ok (Resampled p e o) /\
  point (a_values e) 0 = Some q /\ begins [qz [3; 13; 23; 33]%Z; qz [0; 10; 20; 30]%Z] x /\ q < x.
Proof.
  do 5 eexists. split; [vm_compute; reflexivity|]. split; [vm_compute; reflexivity|]. split; [exists (qz [3; 13; 23; 33]%Z); split; [now left|reflexivity]|].
  vm_compute. reflexivity.
Qed.
Theorem plain_offset position lines r o crop p e o' : encoder position lines r (Quantity_ o) crop = Ok (Resampled p e o') -> encoder position lines r (Plain_ o) crop = Err AttributeError.
Proof.
  unfold encoder. cbn [given]. destruct (factory _) as [enc|]; [|discriminate]. cbn [bind]. destruct (a_start enc); [|discriminate]. cbn [bind]. destruct (a_end enc); [|discriminate]. cbn [bind].
  destruct (measured lines crop _) as [[v w]|]; [|discriminate]. cbn [bind]. destruct (newlimits enc v w) as [[enc'|]|]; cbn [bind]; try discriminate. destruct (factory _); [reflexivity|discriminate].
Qed.

(* no line was measured *)
Lemma nothing_measured position resolution off crop : (forall increasing, measured [] crop increasing = Err ValueError) /\
  forall o, encoder position [] resolution off crop <> Ok o.
Proof.
  assert (M : forall increasing, measured [] crop increasing = Err ValueError) by (intros []; destruct crop; reflexivity).
  split; [exact M|]. intros o. unfold encoder. cbv zeta. destruct (factory _) as [enc|]; cbn [bind]; [|discriminate].
  destruct (a_start enc) as [s|]; cbn [bind]; [|discriminate]. destruct (a_end enc) as [e|]; cbn [bind]; [|discriminate].
  rewrite M. discriminate.
Qed.
