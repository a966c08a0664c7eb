From Verif Require Import GridModel GridSpec.
From Coq Require Import Lia.
Local Open Scope nat_scope.

Lemma Forall2_length {A B} (R : A -> B -> Prop) l1 l2 : Forall2 R l1 l2 -> length l1 = length l2.
Proof. induction 1; cbn [length]; congruence. Qed.
Lemma inside_length sh idx : inside sh idx -> length idx = length sh.
Proof. apply Forall2_length. Qed.
Lemma dimension_pos n d k : dimension n d k <-> position n d = Ok k.
Proof.
  unfold dimension, position. split.
  - intros [L [-> | ->]].
    + destruct (Z.ltb_spec (Z.of_nat k) 0); [lia|]. destruct (Z.leb_spec (Z.of_nat n) (Z.of_nat k)); [lia|]. f_equal. lia.
    + destruct (Z.ltb_spec (Z.of_nat k - Z.of_nat n) 0); [|lia].
      destruct (Z.ltb_spec (Z.of_nat k - Z.of_nat n + Z.of_nat n) 0); [lia|]. f_equal. lia.
  - destruct (Z.ltb_spec d 0).
    + destruct (Z.ltb_spec (d + Z.of_nat n) 0); [discriminate|]. intros E. inversion E; subst. split; [lia|]. right. lia.
    + destruct (Z.leb_spec (Z.of_nat n) d); [discriminate|]. intros E. inversion E; subst. split; [lia|]. left. lia.
Qed.
Lemma position_error n d e : position n d = Err e -> e = IndexError /\ ~ exists k, dimension n d k.
Proof.
  intros H. split.
  - unfold position in H. destruct (d <? 0)%Z; [destruct (_ <? 0)%Z|destruct (_ <=? d)%Z]; inversion H; reflexivity.
  - intros [k K]. apply dimension_pos in K. congruence.
Qed.

(* ---- lists ---- *)
Lemma ins_length {A} k (x : A) : forall l, length (ins k x l) = S (length l).
Proof. induction k; intros [|a l]; cbn [ins length]; try reflexivity. rewrite IHk. reflexivity. Qed.
Lemma del_length {A} k : forall (l : list A), k < length l -> length (del k l) = length l - 1.
Proof.
  induction k; intros [|a l] H; cbn [del length] in *; try lia. rewrite IHk by lia. lia.
Qed.
Lemma del_ins {A} k (x : A) : forall l, k <= length l -> del k (ins k x l) = l.
Proof. induction k; intros [|a l] H; cbn [ins del length] in *; try reflexivity; try lia. rewrite IHk by lia. reflexivity. Qed.
Lemma ins_del {A} k (d : A) : forall l, k < length l -> ins k (nth k l d) (del k l) = l.
Proof. induction k; intros [|a l] H; cbn [ins del length nth] in *; try reflexivity; try lia. rewrite IHk by lia. reflexivity. Qed.
Lemma nth_ins {A} k (x d : A) : forall l, k <= length l -> nth k (ins k x l) d = x.
Proof. induction k; intros [|a l] H; cbn [ins nth length] in *; try reflexivity; try lia. apply IHk; lia. Qed.
Lemma inside_del k : forall sh idx, inside sh idx -> inside (del k sh) (del k idx).
Proof.
  induction k; intros sh idx H; destruct H; cbn [del]; try constructor; auto. apply IHk; assumption.
Qed.
Lemma inside_ins k i : forall sh idx, k < length sh -> i < nth k sh 0 -> inside (del k sh) idx -> inside sh (ins k i idx).
Proof.
  induction k; intros [|n sh] idx L I H; cbn [length nth del ins] in *; try lia.
  - constructor; assumption.
  - inversion H; subst. constructor; [assumption|]. apply IHk; auto; lia.
Qed.
Lemma inside_nth sh idx k : inside sh idx -> k < length sh -> nth k idx 0 < nth k sh 0.
Proof.
  intros H. revert k. induction H; intros k L; cbn [length nth] in *; [lia|]. destruct k; [assumption|]. apply IHForall2; lia.
Qed.

(* ---- selections ---- *)
Inductive fits : list item -> list nat -> Prop :=
| fits_nil : fits [] []
| fits_all its n sh : fits its sh -> fits (All :: its) (n :: sh)
| fits_range a b its n sh : a <= b -> b <= n -> fits its sh -> fits (Range (Z.of_nat a) (Z.of_nat b) :: its) (n :: sh).
Fixpoint osz (its : list item) (sh : list nat) : list nat :=
  match its, sh with
  | All :: its', n :: sh' => n :: osz its' sh'
  | Range a b :: its', n :: sh' => Z.to_nat (b - a) :: osz its' sh'
  | _, _ => []
  end.
Definition full (it : item) (n : nat) : Prop := it = All \/ it = Range 0 (Z.of_nat n).
Lemma bound_in n a : a <= n -> bound n (Z.of_nat a) = a.
Proof. intros H. unfold bound. destruct (Z.ltb_spec (Z.of_nat a) 0); [lia|]. rewrite Nat2Z.id. lia. Qed.
Lemma fits_length its sh : fits its sh -> length its = length sh.
Proof. induction 1; cbn [length]; lia. Qed.
Lemma osz_length its sh : fits its sh -> length (osz its sh) = length sh.
Proof. induction 1; cbn [osz length]; lia. Qed.
Lemma fits_shape its sh : fits its sh -> sel_shape its sh = Ok (osz its sh).
Proof.
  induction 1; cbn [sel_shape osz]; [reflexivity|rewrite IHfits; reflexivity|].
  rewrite IHfits. cbn [bind]. rewrite !bound_in by lia. do 2 f_equal. lia.
Qed.
Lemma osz_full its sh : fits its sh -> forall k, k < length sh -> full (nth k its All) (nth k sh 0) -> nth k (osz its sh) 0 = nth k sh 0.
Proof.
  induction 1; intros k L F; cbn [length] in L; [lia| |]; destruct k; cbn [nth osz] in *; try (apply IHfits; [lia|exact F]); [reflexivity|].
  destruct F as [F|F]; [discriminate F|]. inversion F. lia.
Qed.
Lemma slice_shape its sh : fits its sh -> forall k i, k < length sh -> i < nth k sh 0 ->
  sel_shape (upd k (Pos i) its) sh = Ok (del k (osz its sh)).
Proof.
  induction 1; intros k i L I; cbn [length] in L; [lia| |]; destruct k; cbn [nth upd osz del] in *.
  - cbn [sel_shape]. destruct (Nat.ltb_spec i n); [|lia]. now apply fits_shape.
  - cbn [sel_shape]. rewrite IHfits by lia. reflexivity.
  - cbn [sel_shape]. destruct (Nat.ltb_spec i n); [|lia]. now apply fits_shape.
  - cbn [sel_shape]. rewrite IHfits by lia. cbn [bind]. rewrite !bound_in by lia. do 2 f_equal. lia.
Qed.
Lemma slice_index its sh : fits its sh -> forall k idx, k < length sh -> full (nth k its All) (nth k sh 0) ->
  inside (osz its sh) idx -> sel_index (upd k (Pos (nth k idx 0)) its) sh (del k idx) = sel_index its sh idx.
Proof.
  induction 1; intros k idx L F I; cbn [length] in L; [lia| |]; cbn [osz] in I; inversion I; subst; destruct k; cbn [nth upd del sel_index] in *.
  - reflexivity.
  - f_equal. apply IHfits; auto; lia.
  - destruct F as [F|F]; [discriminate F|]. inversion F. assert (a = 0) by lia. subst a. rewrite bound_in by lia. reflexivity.
  - f_equal. apply IHfits; auto; lia.
Qed.
Lemma index_inside its sh : fits its sh -> forall idx, inside (osz its sh) idx -> inside sh (sel_index its sh idx).
Proof.
  induction 1; intros idx I; cbn [osz] in I; inversion I; subst; cbn [sel_index]; constructor; auto.
  - apply IHfits; assumption.
  - rewrite bound_in by lia. lia.
  - apply IHfits; assumption.
Qed.
Lemma fits_alls sh : fits (repeat All (length sh)) sh.
Proof. induction sh; cbn [length repeat]; constructor; assumption. Qed.
Lemma osz_alls sh : osz (repeat All (length sh)) sh = sh.
Proof. induction sh; cbn [length repeat osz]; [reflexivity|]. now rewrite IHsh. Qed.
Lemma index_alls sh : forall idx, length idx = length sh -> sel_index (repeat All (length sh)) sh idx = idx.
Proof.
  induction sh as [|n sh IH]; intros idx L; cbn [length repeat sel_index] in *; [reflexivity|].
  destruct idx as [|i idx]; [reflexivity|]. rewrite IH by (cbn in L; lia). reflexivity.
Qed.
Lemma unsel_alls sh : forall idx, length idx = length sh -> unsel (repeat All (length sh)) sh idx = Some idx.
Proof.
  induction sh as [|n sh IH]; intros idx L; cbn [length repeat unsel] in *; [reflexivity|].
  destruct idx as [|i idx]; [cbn in L; lia|]. rewrite IH by (cbn in L; lia). reflexivity.
Qed.
Lemma slice_unsel sh : forall k i idx, k < length sh -> length idx = length sh ->
  unsel (upd k (Pos i) (repeat All (length sh))) sh idx = if i =? nth k idx 0 then Some (del k idx) else None.
Proof.
  induction sh as [|n sh IH]; intros k i idx K L; cbn [length] in K; [lia|].
  destruct idx as [|j idx]; [cbn in L; lia|]. cbn [length] in L. destruct k; cbn [length repeat upd unsel nth del].
  - destruct (i =? j); [|reflexivity]. apply unsel_alls. lia.
  - rewrite IH by lia. destruct (i =? nth k idx 0); reflexivity.
Qed.
Lemma shape_eqb_refl a : shape_eqb a a = true.
Proof.
  unfold shape_eqb. rewrite Nat.eqb_refl. cbn [andb]. induction a; cbn [combine forallb fst snd]; [reflexivity|]. now rewrite Nat.eqb_refl.
Qed.
Lemma upd_shape {A} k (x : A) : forall l, length (upd k x l) = length l.
Proof. induction k; intros [|a l]; cbn [upd length]; try reflexivity. now rewrite IHk. Qed.

(* ---- slice by slice ---- *)
Section Slices.
  Context {A : Type} (f : A -> A) (its : list item) (din : arr A) (k : nat) (fill : A).
  Hypothesis F : fits its (shape din).
  Hypothesis K : k < length (shape din).
  Hypothesis FULL : full (nth k its All) (nth k (shape din) 0).
  Let osh := osz its (shape din).
  Let process := fun d : arr A => Ok (amap f d).
  Definition done (i : nat) (out : arr A) : Prop :=
    shape out = osh /\ forall idx, inside osh idx ->
      at_ out idx = if nth k idx 0 <? i then f (at_ din (sel_index its (shape din) idx)) else fill.
  Lemma osh_length : length osh = length (shape din).
  Proof. now apply osz_length. Qed.
  Lemma slices_done n : forall i out, done i out -> i + n = nth k (shape din) 0 ->
    exists out', slices process k i n its (repeat All (length osh)) din out = Ok out' /\ done (i + n) out'.
  Proof.
    induction n as [|n IH]; intros i out D E; cbn [slices].
    - exists out. rewrite Nat.add_0_r. auto.
    - unfold get. rewrite (slice_shape its _ F k i K) by lia. cbn [bind]. unfold process at 1. cbn [bind].
      unfold put. destruct D as [DS DA].
      assert (KO : k < length osh) by (rewrite osh_length; exact K).
      assert (NO : nth k osh 0 = nth k (shape din) 0) by (now apply osz_full).
      pose proof (slice_shape _ _ (fits_alls osh) k i KO ltac:(lia)) as SS. rewrite osz_alls in SS.
      rewrite DS, SS. cbn [bind]. cbn [shape amap]. fold osh. rewrite shape_eqb_refl.
      destruct (IH (S i) (mkArr osh (fun idx => match unsel (upd k (Pos i) (repeat All (length osh))) osh idx with
         | Some j => at_ (amap f (mkArr (del k osh) (fun i0 => at_ din (sel_index (upd k (Pos i) its) (shape din) i0)))) j
         | None => at_ out idx end))) as (out' & O & D').
      + split; [reflexivity|]. intros idx I. cbn [at_ shape]. rewrite slice_unsel by (try exact KO; now apply inside_length).
        destruct (Nat.eqb_spec i (nth k idx 0)) as [EI|NE].
        * cbn [amap at_]. destruct (Nat.ltb_spec (nth k idx 0) (S i)); [|lia]. rewrite EI. do 2 f_equal. apply slice_index; assumption.
        * rewrite (DA idx I). destruct (Nat.ltb_spec (nth k idx 0) i), (Nat.ltb_spec (nth k idx 0) (S i)); try reflexivity; lia.
      + lia.
      + exists out'. split; [exact O|]. replace (i + S n) with (S i + n) by lia. exact D'.
  Qed.
End Slices.
Lemma sizes_ok l : sizes (map Z.of_nat l) = Ok l.
Proof.
  induction l as [|n l IH]; cbn [map sizes]; [reflexivity|]. destruct (Z.ltb_spec (Z.of_nat n) 0); [lia|]. rewrite IH, Nat2Z.id. reflexivity.
Qed.
Definition selected {A} (f : A -> A) (its : list item) (din out : arr A) : Prop :=
  shape out = osz its (shape din) /\
  forall idx, inside (osz its (shape din)) idx -> at_ out idx = f (at_ din (sel_index its (shape din) idx)).
Lemma execute_ok {A} (f : A -> A) sliced stackdim its (din : arr A) k fill :
  fits its (shape din) -> dimension (length (shape din)) stackdim k -> full (nth k its All) (nth k (shape din) 0) ->
  exists out, execute (fun d => Ok (amap f d)) sliced stackdim (shape din) (Ok (map Z.of_nat (osz its (shape din)))) its
    (repeat All (length (shape din))) fill din = Ok out /\ selected f its din out.
Proof.
  intros F D FULL. assert (K : k < length (shape din)) by (destruct D; assumption). unfold execute. destruct sliced.
  - cbn [bind]. rewrite sizes_ok. cbn [bind]. rewrite (fits_length _ _ F). rewrite (proj1 (dimension_pos _ _ _) D). cbn [bind].
    destruct (slices_done f its din k fill F K FULL (nth k (shape din) 0) 0 (mkArr (osz its (shape din)) (fun _ => fill))) as (out & O & DS & DA).
    + split; [reflexivity|]. intros idx I. destruct (Nat.ltb_spec (nth k idx 0) 0); [lia|reflexivity].
    + reflexivity.
    + rewrite (osz_length _ _ F) in O. exists out. split; [exact O|]. split; [exact DS|]. intros idx I. rewrite (DA idx I).
      assert (nth k idx 0 < nth k (osz its (shape din)) 0) by (apply inside_nth; [exact I|rewrite (osz_length _ _ F); exact K]).
      rewrite (osz_full _ _ F k K FULL) in H. cbn [plus]. destruct (Nat.ltb_spec (nth k idx 0) (nth k (shape din) 0)); [reflexivity|lia].
  - unfold get. rewrite (fits_shape _ _ F). cbn [bind]. eexists. split; [reflexivity|]. split; [reflexivity|]. intros idx I. reflexivity.
Qed.
Lemma selected_same {A} (f : A -> A) its din o1 o2 : selected f its din o1 -> selected f its din o2 -> same o1 o2.
Proof. intros [S1 A1] [S2 A2]. split; [congruence|]. intros i I. rewrite S1 in I. rewrite A1, A2 by exact I. reflexivity. Qed.
Theorem grid_ok : forall (A : Type) (f : A -> A) sliced stackdim k fill (din : arr A),
  dimension (length (shape din)) stackdim k ->
  exists out, execute_grid (fun d => Ok (amap f d)) sliced stackdim fill din = Ok out /\ same out (amap f din).
Proof.
  intros A f sliced stackdim k fill din D. unfold execute_grid.
  assert (F : full (nth k (repeat All (length (shape din))) All) (nth k (shape din) 0)).
  { left. clear. generalize (length (shape din)). intros n. revert k. induction n; intros [|k]; cbn; auto. }
  destruct (execute_ok f sliced stackdim (repeat All (length (shape din))) din k fill (fits_alls _) D F) as (out & O & S & V).
  rewrite osz_alls in O, S, V. exists out. split; [exact O|]. split; [exact S|]. intros i I. rewrite S in I. rewrite (V i I).
  rewrite index_alls by (now apply inside_length). reflexivity.
Qed.
Theorem grid_error : forall (A : Type) (process : arr A -> result (arr A)) stackdim fill (din : arr A),
  ~ (exists k, dimension (length (shape din)) stackdim k) -> execute_grid process true stackdim fill din = Err IndexError.
Proof.
  intros A process stackdim fill din N. unfold execute_grid, execute. cbn [bind]. rewrite sizes_ok. cbn [bind].
  destruct (position (length (shape din)) stackdim) as [k|e] eqn:P; [destruct N; exists k; now apply dimension_pos|].
  cbn [bind]. apply position_error in P. destruct P as [-> _]. reflexivity.
Qed.

(* ---- sliceinfo ---- *)
Lemma firstn_skipn_del {A} k : forall (l : list A), firstn k l ++ skipn (S k) l = del k l.
Proof. induction k; intros [|a l]; cbn [firstn skipn del app]; try reflexivity. f_equal. apply IHk. Qed.
Lemma sel_slice_shape sh : forall k i r, k + r < length sh -> i < nth k sh 0 ->
  sel_shape (repeat All k ++ [Pos i] ++ repeat All r) sh = Ok (del k sh).
Proof.
  induction sh as [|n sh IH]; intros k i r L I; cbn [length] in L; [lia|]. destruct k; cbn [repeat app sel_shape del nth] in *.
  - destruct (Nat.ltb_spec i n); [|lia]. clear IH I.
    assert (G : forall r sh, r <= length sh -> sel_shape (repeat All r) sh = Ok sh).
    { clear. induction r; intros [|n sh] H; cbn [repeat sel_shape length] in *; try reflexivity; try lia. rewrite IHr by lia. reflexivity. }
    apply G. lia.
  - cbn [app] in *. rewrite IH by (try assumption; lia). reflexivity.
Qed.
Lemma sel_slice_index sh : forall k i r j, k + r < length sh -> length j = length sh - 1 ->
  sel_index (repeat All k ++ [Pos i] ++ repeat All r) sh j = ins k i j.
Proof.
  induction sh as [|n sh IH]; intros k i r j L LJ; cbn [length] in L; [lia|]. destruct k; cbn [repeat app sel_index ins].
  - f_equal. cbn [length] in LJ. clear IH.
    assert (G : forall r sh j, r <= length sh -> length j = length sh -> sel_index (repeat All r) sh j = j).
    { clear. induction r; intros [|n sh] [|k j] H E; cbn [repeat sel_index length] in *; try reflexivity; try lia. rewrite IHr by lia. reflexivity. }
    apply G; lia.
  - destruct j as [|x j]; [cbn in LJ; lia|]. f_equal. cbn [app] in *. apply IH; cbn in LJ; lia.
Qed.
Theorem sliceinfo_ok : forall sh d k, dimension (length sh) d k ->
  exists gen, sliceinfo sh d = Ok (del k sh, gen) /\
    forall (A : Type) (a : arr A) i, shape a = sh -> i < nth k sh 0 ->
      exists s, get (gen i) a = Ok s /\ shape s = del k sh /\
                forall j, inside (del k sh) j -> at_ s j = at_ a (ins k i j).
Proof.
  intros sh d k [K D]. unfold sliceinfo.
  assert (E : (if (d <? 0)%Z then (d + Z.of_nat (length sh))%Z else d) = Z.of_nat k).
  { destruct (Z.ltb_spec d 0); lia. }
  rewrite E. destruct (Z.ltb_spec (Z.of_nat k) 0); [lia|]. destruct (Z.ltb_spec (Z.of_nat (length sh) - 1) (Z.of_nat k)); [lia|]. cbn [orb].
  assert (G : forall gen, (forall i, exists r, k + r < length sh /\ gen i = repeat All k ++ [Pos i] ++ repeat All r) ->
    forall (A : Type) (a : arr A) i, shape a = sh -> i < nth k sh 0 ->
      exists s, get (gen i) a = Ok s /\ shape s = del k sh /\ forall j, inside (del k sh) j -> at_ s j = at_ a (ins k i j)).
  { intros gen H1 A a i SA I. destruct (H1 i) as (r & R & G). unfold get. rewrite G, SA, (sel_slice_shape sh k i r R I). cbn [bind].
    eexists. split; [reflexivity|]. split; [reflexivity|]. intros j J. cbn [at_]. rewrite sel_slice_index; [reflexivity|exact R|].
    rewrite (inside_length _ _ J). now apply del_length. }
  destruct (Z.eqb_spec (Z.of_nat k) 0) as [Z0|Z0].
  - assert (k = 0) by lia. subst k. exists (fun i => [Pos i]). split.
    + destruct sh; [cbn in K; lia|]. reflexivity.
    + apply G. intros i. exists 0. split; [lia|reflexivity].
  - destruct (Z.eqb_spec (Z.of_nat k) (Z.of_nat (length sh) - 1)) as [Z1|Z1].
    + assert (EK : length sh - 1 = k) by lia. rewrite EK. eexists. split.
      * rewrite <- firstn_skipn_del. rewrite (skipn_all2 sh) by lia. rewrite app_nil_r. reflexivity.
      * apply G. intros i. exists 0. split; [lia|reflexivity].
    + rewrite Nat2Z.id. eexists. split; [rewrite firstn_skipn_del; reflexivity|]. apply G. intros i. eexists. split; [|reflexivity]. lia.
Qed.
Theorem sliceinfo_error : forall sh d, ~ (exists k, dimension (length sh) d k) -> sliceinfo sh d = Err ValueError.
Proof.
  intros sh d N. unfold sliceinfo. set (e := if (d <? 0)%Z then _ else _).
  assert (H : ((e <? 0) || (Z.of_nat (length sh) - 1 <? e))%Z = true).
  { destruct (Z.ltb_spec e 0); [reflexivity|]. destruct (Z.ltb_spec (Z.of_nat (length sh) - 1) e); [reflexivity|]. exfalso. apply N.
    exists (Z.to_nat e). unfold e in *. split; [destruct (d <? 0)%Z; lia|]. destruct (Z.ltb_spec d 0); [right|left]; lia. }
  rewrite H. reflexivity.
Qed.
(* the axis of signals *)
Theorem axes_ok : forall (A : Type) (d : Z) (x : A) axes, (0 <= d <= Z.of_nat (length axes))%Z ->
  signal_axes d (grid_axes d x axes) = Ok axes /\ nth_error (grid_axes d x axes) (Z.to_nat d) = Some x.
Proof.
  intros A d x axes H. unfold signal_axes, grid_axes, py_insert, pop. destruct (Z.ltb_spec d 0); [lia|]. set (k := Z.to_nat d) in *.
  assert (KL : k <= length axes) by lia. rewrite ins_length. split.
  - replace (position (S (length axes)) d) with (Ok k : result nat).
    + cbn [bind]. rewrite del_ins by exact KL. reflexivity.
    + symmetry. apply dimension_pos. split; [lia|]. left. lia.
  - clear -KL. revert axes KL. induction k; intros [|a l] H; cbn [ins nth_error length] in *; try reflexivity; try lia. apply IHk. lia.
Qed.

(* ---- cropping ---- *)
Lemma roi_fits sh roi : within sh roi -> fits (map (fun ab => Range (fst ab) (snd ab)) roi) sh.
Proof.
  induction 1 as [|[a b] n roi sh (H1 & H2 & H3) F IH]; cbn [map fst snd] in *; [constructor|].
  replace a with (Z.of_nat (Z.to_nat a)) by lia. replace b with (Z.of_nat (Z.to_nat b)) by lia. constructor; [lia|lia|exact IH].
Qed.
Lemma roi_osz sh roi : within sh roi -> osz (map (fun ab => Range (fst ab) (snd ab)) roi) sh = roi_shape roi.
Proof. induction 1; cbn [map osz]; [reflexivity|]. rewrite IHForall2. reflexivity. Qed.
Lemma roi_index sh roi : within sh roi -> forall idx, length idx = length sh ->
  sel_index (map (fun ab => Range (fst ab) (snd ab)) roi) sh idx = shift roi idx.
Proof.
  induction 1 as [|[a b] n roi sh (H1 & H2 & H3) F IH]; intros [|i idx] L; cbn [map sel_index length fst snd shift] in *; try reflexivity; try lia.
  rewrite IH by lia. f_equal. f_equal. replace a with (Z.of_nat (Z.to_nat a)) at 1 by lia. apply bound_in. lia.
Qed.
Lemma amap_id {A} (d : arr A) : d = amap (fun x => x) d.
Proof. destruct d. reflexivity. Qed.
Lemma execute_id {A} sliced stackdim inshape outshape indexin indexout fill (din : arr A) :
  execute (fun d => Ok d) sliced stackdim inshape outshape indexin indexout fill din =
  execute (fun d => Ok (amap (fun x => x) d)) sliced stackdim inshape outshape indexin indexout fill din.
Proof.
  assert (E : forall k n i indexin indexout (din out : arr A), slices (fun d => Ok d) k i n indexin indexout din out =
    slices (fun d => Ok (amap (fun x => x) d)) k i n indexin indexout din out).
  { clear. intros k n. induction n; intros i indexin indexout din out; cbn [slices]; [reflexivity|].
    destruct (get _ din) as [d|e]; cbn [bind]; [|reflexivity]. rewrite <- amap_id. destruct (put _ d out); cbn [bind]; [apply IHn|reflexivity]. }
  unfold execute. destruct sliced.
  - destruct outshape as [os|e]; cbn [bind]; [|reflexivity]. destruct (sizes os) as [sh|e]; cbn [bind]; [|reflexivity].
    destruct (position (length inshape) stackdim); cbn [bind]; [|reflexivity]. destruct (position (length indexin) stackdim); cbn [bind]; [|reflexivity]. apply E.
  - destruct (get indexin din) as [d|e]; cbn [bind]; [|reflexivity]. rewrite <- amap_id. reflexivity.
Qed.
Lemma map_const_repeat {A B} (c : B) (l : list A) : map (fun _ => c) l = repeat c (length l).
Proof. induction l; cbn [map length repeat]; congruence. Qed.
Theorem crop_ok : forall (A : Type) sliced stackdim k roi fill (din : arr A), dimension (length (shape din)) stackdim k ->
  within (shape din) roi -> nth_error roi k = Some (0%Z, Z.of_nat (nth k (shape din) 0)) ->
  exists out, crop sliced stackdim (Some roi) fill din = Ok out /\ shape out = roi_shape roi /\
    forall idx, inside (roi_shape roi) idx -> at_ out idx = at_ din (shift roi idx).
Proof.
  intros A sliced stackdim k roi fill din D W R. unfold crop, prepare.
  rewrite execute_id, map_const_repeat.
  assert (LEN : length roi = length (shape din)) by (now apply Forall2_length in W).
  assert (OS : map (fun ab : Z * Z => (snd ab - fst ab)%Z) roi = map Z.of_nat (osz (map (fun ab => Range (fst ab) (snd ab)) roi) (shape din))).
  { rewrite (roi_osz _ _ W). unfold roi_shape. rewrite map_map. apply map_ext_in. intros [a b] I. cbn [fst snd].
    clear -W I. induction W as [|ab n roi sh H W IH]; [destruct I|]. destruct I as [->|I]; [|auto]. cbn in H. lia. }
  rewrite OS, LEN.
  assert (FULL : full (nth k (map (fun ab => Range (fst ab) (snd ab)) roi) All) (nth k (shape din) 0)).
  { right. apply (map_nth_error (fun ab => Range (fst ab) (snd ab))) in R. exact (nth_error_nth _ _ All R). }
  destruct (execute_ok (fun x => x) sliced stackdim _ din k fill (roi_fits _ _ W) D FULL) as (out & O & S & V).
  rewrite (roi_osz _ _ W) in S, V. exists out. split; [exact O|]. split; [exact S|]. intros idx I. rewrite (V idx I). f_equal.
  apply roi_index; [exact W|]. rewrite (inside_length _ _ I). unfold roi_shape. rewrite map_length. exact LEN.
Qed.
Theorem crop_none : forall (A : Type) stackdim fill (din : arr A),
  crop true stackdim None fill din = Err AttributeError /\
  exists out, crop false stackdim None fill din = Ok out /\ same out din.
Proof.
  intros A stackdim fill din. split; [reflexivity|]. unfold crop, prepare, execute, get. rewrite (fits_shape _ _ (fits_alls (shape din))), osz_alls.
  cbn [bind]. eexists. split; [reflexivity|]. split; [reflexivity|]. intros i I. cbn [at_ shape]. rewrite index_alls; [reflexivity|now apply inside_length].
Qed.
Lemma slice_axis_in {A} (ax : list A) a b : (0 <= a)%Z -> (a <= b)%Z -> (b <= Z.of_nat (length ax))%Z ->
  slice_axis ax a b = firstn (Z.to_nat (b - a)) (skipn (Z.to_nat a) ax).
Proof.
  intros H1 H2 H3. unfold slice_axis. replace a with (Z.of_nat (Z.to_nat a)) at 1 2 by lia.
  replace b with (Z.of_nat (Z.to_nat b)) at 1 by lia. rewrite !bound_in by lia. f_equal. lia.
Qed.
Theorem crop_axes_ok : forall (A : Type) roi (axes : list (list A)), within (map (@length A) axes) roi ->
  Forall2 (fun ax p => let '(old, (a, b)) := p in ax = firstn (Z.to_nat (b - a)) (skipn (Z.to_nat a) old) /\ length ax = Z.to_nat (b - a))
    (crop_axes (Some roi) axes) (combine axes roi).
Proof.
  intros A roi axes W. unfold crop_axes. revert axes W. induction roi as [|[a b] roi IH]; intros [|ax axes] W; cbn [combine map] in *; try constructor.
  - inversion W; subst. cbn [fst snd] in *. destruct H2 as (H1 & H2 & H3).
    assert (L : length (firstn (Z.to_nat (b - a)) (skipn (Z.to_nat a) ax)) = Z.to_nat (b - a)) by (rewrite firstn_length, skipn_length; lia).
    destruct (Z.eqb_spec (Z.of_nat (length ax)) (b - a)) as [E|E].
    + assert (a = 0%Z) by lia. subst a. change (Z.to_nat 0) with 0 in *. cbn [skipn] in *. split; [symmetry; apply firstn_all2; lia|lia].
    + rewrite slice_axis_in by assumption. auto.
  - inversion W; subst. apply IH. assumption.
Qed.

(* ---- the mask ---- *)
Lemma mask_slices_ok m gen g sh k : 
  (forall i, i < nth k (shape g) 0 -> exists s, get (gen i) g = Ok s /\ forall j, inside sh j -> at_ s j = at_ g (ins k i j)) ->
  forall n i mk, i + n <= nth k (shape g) 0 -> shape mk = sh ->
  exists mk', mask_slices m gen g i n mk = Ok mk' /\ shape mk' = sh /\
    forall j, inside sh j -> (at_ mk' j = true <-> at_ mk j = true /\ forall p, i <= p < i + n -> marked m (at_ g (ins k p j)) = false).
Proof.
  intros G. induction n as [|n IH]; intros i mk L S; cbn [mask_slices].
  - exists mk. split; [reflexivity|]. split; [exact S|]. intros j J. split; [intros H; split; [exact H|intros p P; lia]|tauto].
  - destruct (G i ltac:(lia)) as (s & GS & V). rewrite GS. cbn [bind].
    destruct (IH (Datatypes.S i) (mkArr (shape mk) (fun j => at_ mk j && negb (marked m (at_ s j)))) ltac:(lia) S) as (mk' & E & S' & V').
    exists mk'. split; [exact E|]. split; [exact S'|]. intros j J. rewrite (V' j J). cbn [at_]. rewrite Bool.andb_true_iff, Bool.negb_true_iff, (V j J).
    split.
    + intros [[H1 H2] H3]. split; [exact H1|]. intros p P. destruct (Nat.eq_dec p i) as [->|NE]; [exact H2|apply H3; lia].
    + intros [H1 H2]. split; [split; [exact H1|apply H2; lia]|]. intros p P. apply H2. lia.
Qed.
Lemma count_zero {A} (p : A -> bool) l : count p l = 0 <-> forall x, In x l -> p x = false.
Proof.
  unfold count. induction l as [|a l IH]; cbn [filter In length]; [split; [intros _ x []|reflexivity]|].
  destruct (p a) eqn:P; cbn [length].
  - split; [lia|]. intros H. rewrite (H a (or_introl eq_refl)) in P. discriminate P.
  - rewrite IH. split; [intros H x [<-|I]; auto|auto].
Qed.
Definition mask_of (m : marker) (g : arr cell) (k : nat) (mk : arr bool) : Prop :=
  shape mk = del k (shape g) /\ forall j, inside (shape mk) j -> (at_ mk j = true <-> valid m g k j).
Theorem mask_ok : forall sliced m g d k, dimension (length (shape g)) d k -> exists mk, mask sliced m g d = Ok mk /\ mask_of m g k mk.
Proof.
  intros sliced m g d k D. unfold mask. destruct sliced.
  - destruct (sliceinfo_ok _ _ _ D) as (gen & E & G). rewrite E. cbn [bind]. rewrite (proj1 (dimension_pos _ _ _) D). cbn [bind].
    destruct (mask_slices_ok m gen g (del k (shape g)) k) with (n := nth k (shape g) 0) (i := 0) (mk := mkArr (del k (shape g)) (fun _ : list nat => true))
      as (mk & EM & S & V); [|lia|reflexivity|].
    + intros i I. destruct (G _ g i eq_refl I) as (s & GS & _ & V). exists s. auto.
    + exists mk. split; [exact EM|]. split; [exact S|]. rewrite S. intros j J. rewrite (V j J). cbn [at_]. unfold valid.
      split; [intros [_ H] i I; apply H; lia|intros H; split; [reflexivity|]; intros p P; apply H; lia].
  - rewrite (proj1 (dimension_pos _ _ _) D). cbn [bind]. eexists. split; [reflexivity|]. split; [reflexivity|]. intros j J. cbn [mask_whole at_].
    rewrite Nat.eqb_eq, count_zero. unfold valid. split.
    + intros H i I. apply H. apply in_seq. lia.
    + intros H i I. apply in_seq in I. apply H. lia.
Qed.
Theorem mask_error : forall sliced m g d, ~ (exists k, dimension (length (shape g)) d k) ->
  mask sliced m g d = Err (if sliced then ValueError else IndexError).
Proof.
  intros sliced m g d N. unfold mask. destruct sliced.
  - rewrite sliceinfo_error by exact N. reflexivity.
  - destruct (position (length (shape g)) d) as [k|e] eqn:P; [destruct N; exists k; now apply dimension_pos|].
    cbn [bind]. apply position_error in P. destruct P as [-> _]. reflexivity.
Qed.

(* ---- lines ---- *)
Theorem indices_ok : forall sh, NoDup (indices sh) /\ forall j, In j (indices sh) <-> inside sh j.
Proof.
  induction sh as [|n sh [ND IN]]; cbn [indices].
  - split; [repeat constructor; intros []|]. intros j. split; [intros [<-|[]]; constructor|intros H; inversion H; left; reflexivity].
  - split.
    + generalize 0. intros z. revert z. clear IN. induction n as [|n IHn]; intros z; cbn [seq flat_map]; [constructor|].
      assert (NDM : NoDup (map (cons z) (indices sh))).
      { clear IHn. induction ND; cbn [map]; constructor; [|assumption]. intros I. apply in_map_iff in I. destruct I as (y & E & I). inversion E; subst. contradiction. }
      specialize (IHn (S z)). revert IHn NDM.
      assert (DIS : forall x, In x (map (cons z) (indices sh)) -> ~ In x (flat_map (fun k => map (cons k) (indices sh)) (seq (S z) n))).
      { intros x I1 I2. apply in_map_iff in I1. destruct I1 as (y & <- & _). apply in_flat_map in I2. destruct I2 as (k & K & I2).
        apply in_seq in K. apply in_map_iff in I2. destruct I2 as (y' & E & _). inversion E. lia. }
      revert DIS. generalize (map (cons z) (indices sh)) as l1. generalize (flat_map (fun k => map (cons k) (indices sh)) (seq (S z) n)) as l2.
      clear. intros l2 l1 DIS N2 N1. induction N1 as [|x l1 NI N1 IH]; cbn [app]; [exact N2|]. constructor.
      * intros I. apply in_app_or in I. destruct I as [I|I]; [contradiction|]. exact (DIS x (or_introl eq_refl) I).
      * apply IH. intros y Y. apply DIS. right. exact Y.
    + intros j. rewrite in_flat_map. split.
      * intros (k & K & I). apply in_seq in K. apply in_map_iff in I. destruct I as (y & <- & I). constructor; [lia|]. now apply IN.
      * intros H. inversion H; subst. exists x. split; [apply in_seq; lia|]. apply in_map. now apply IN.
Qed.
Lemma line_size_pos mk d p : line_size mk d p <> 0 <-> nonempty_line mk d p.
Proof.
  unfold line_size, nonempty_line, on_line. fold (count (fun j => (nth d j 0 =? p) && at_ mk j) (indices (shape mk))).
  split.
  - intros H. destruct (filter (fun j => (nth d j 0 =? p) && at_ mk j) (indices (shape mk))) as [|j l] eqn:F.
    + exfalso. apply H. unfold count. rewrite F. reflexivity.
    + assert (I : In j (filter (fun j => (nth d j 0 =? p) && at_ mk j) (indices (shape mk)))) by (rewrite F; left; reflexivity).
      apply filter_In in I. destruct I as [I B]. apply Bool.andb_true_iff in B. destruct B as [B1 B2]. exists j.
      split; [now apply (proj2 (indices_ok _))|]. split; [now apply Nat.eqb_eq|exact B2].
  - intros (j & J & L & V) H. apply count_zero with (x := j) in H; [|now apply (proj2 (indices_ok _))].
    rewrite L, V, Nat.eqb_refl in H. discriminate H.
Qed.
Definition line_ok (nanfull : bool) (counts : list nat) (p : nat) : Prop :=
  p < length counts /\ nth p counts 0 <> 0 /\ (nanfull = true -> forall q, q < length counts -> nth q counts 0 <= nth p counts 0).
Lemma argwhere_in l : forall i p, In p (argwhere i l) <-> i <= p /\ nth_error l (p - i) = Some true.
Proof.
  induction l as [|b l IH]; intros i p; cbn [argwhere].
  - split; [intros []|]. intros [_ H]. destruct (p - i); discriminate H.
  - assert (ST : forall q, i <= p /\ nth_error (b :: l) (p - i) = Some q <-> (p = i /\ b = q) \/ (S i <= p /\ nth_error l (p - S i) = Some q)).
    { intros q. destruct (Nat.eq_dec p i) as [->|NE].
      - rewrite Nat.sub_diag. cbn [nth_error]. split; [intros [_ H]; left; split; congruence|]. intros [[_ ->]|[H _]]; [auto|lia].
      - split.
        + intros [H1 H2]. right. split; [lia|]. replace (p - i) with (S (p - S i)) in H2 by lia. exact H2.
        + intros [[H _]|[H1 H2]]; [lia|]. split; [lia|]. replace (p - i) with (S (p - S i)) by lia. exact H2. }
    rewrite (ST true). destruct b; cbn [In]; rewrite IH; intuition congruence.
Qed.
Lemma argwhere_ends l : forall i x t, argwhere i l = x :: t -> 
  In (last (x :: t) 0) (x :: t) /\ forall p, In p (x :: t) -> x <= p <= last (x :: t) 0.
Proof.
  induction l as [|b l IH]; intros i x t E; cbn [argwhere] in E; [discriminate E|]. destruct b; [|exact (IH _ _ _ E)].
  inversion E; subst. destruct (argwhere (S x) l) as [|y t] eqn:A.
  - cbn [last In]. split; [auto|]. intros p [<-|[]]. lia.
  - destruct (IH _ _ _ A) as [I H]. change (last (x :: y :: t) 0) with (last (y :: t) 0). split; [right; exact I|].
    assert (Y : S x <= y) by (apply (proj1 (argwhere_in l (S x) y)); rewrite A; left; reflexivity).
    pose proof (H y (or_introl eq_refl)). intros p [<-|P]; [lia|]. specialize (H p P). lia.
Qed.
Lemma list_max_ge l p : nth p l 0 <= list_max l.
Proof.
  destruct (Nat.lt_ge_cases p (length l)) as [L|L]; [|rewrite nth_overflow by exact L; lia].
  pose proof (proj1 (list_max_le l (list_max l)) (le_n _)) as F. rewrite Forall_forall in F. apply F. now apply nth_In.
Qed.
Lemma list_max_in (l : list nat) : l <> [] -> exists p, p < length l /\ nth p l 0 = list_max l.
Proof.
  induction l as [|a l IH]; [congruence|]. intros _. destruct l as [|b l]; [exists 0; cbn; split; lia|].
  destruct IH as (p & P & E); [discriminate|]. change (list_max (a :: b :: l)) with (Nat.max a (list_max (b :: l))).
  destruct (Nat.max_spec a (list_max (b :: l))) as [[_ H]|[_ H]]; rewrite H.
  - exists (S p). cbn [nth length] in *. split; [lia|exact E].
  - exists 0. cbn [nth length]. split; [lia|reflexivity].
Qed.
Lemma line_sel (nanfull : bool) counts (sel : list bool) : (if nanfull
              then match counts with
                   | [] => Err ValueError
                   | _ => let mx := list_max counts in
                          Ok (if mx =? 0 then map (fun c => negb (c =? 0)) counts else map (fun c => c =? mx) counts)
                   end
              else Ok (map (fun c => negb (c =? 0)) counts)) = Ok sel ->
  forall p, In p (argwhere 0 sel) <-> line_ok nanfull counts p.
Proof.
  assert (NZ : forall p, nth_error (map (fun c => negb (c =? 0)) counts) p = Some true <-> p < length counts /\ nth p counts 0 <> 0).
  { intros p. destruct (nth_error counts p) as [c|] eqn:N.
    - rewrite (map_nth_error _ _ _ N). rewrite (nth_error_nth _ _ 0 N). assert (p < length counts) by (apply nth_error_Some; congruence).
      destruct (Nat.eqb_spec c 0); cbn [negb]; split; intros H1; try discriminate; intuition congruence.
    - assert (length counts <= p) by (apply nth_error_None; exact N). rewrite (proj2 (nth_error_None _ p)) by (rewrite map_length; lia).
      split; [discriminate|lia]. }
  intros E p. rewrite argwhere_in, Nat.sub_0_r. unfold line_ok. destruct nanfull.
  - destruct counts as [|c0 counts]; [discriminate E|]. cbv zeta in E. set (l := c0 :: counts) in *.
    destruct (Nat.eqb_spec (list_max l) 0) as [Z|NZ'].
    + assert (ES : sel = map (fun c => negb (c =? 0)) l) by congruence. rewrite ES. rewrite NZ. pose proof (list_max_ge l p). split; [intros (_ & _ & H1); lia|]. intros (_ & H1 & _). lia.
    + assert (ES : sel = map (fun c => c =? list_max l) l) by congruence. rewrite ES. clear E ES.
      assert (M : nth_error (map (fun c => c =? list_max l) l) p = Some true <-> p < length l /\ nth p l 0 = list_max l).
      { destruct (nth_error l p) as [c|] eqn:N.
        - rewrite (map_nth_error _ _ _ N). rewrite (nth_error_nth _ _ 0 N). assert (p < length l) by (apply nth_error_Some; congruence).
          destruct (Nat.eqb_spec c (list_max l)); split; intros H1; try discriminate; intuition congruence.
        - assert (length l <= p) by (apply nth_error_None; exact N). rewrite (proj2 (nth_error_None _ p)) by (rewrite map_length; lia).
          split; [discriminate|lia]. }
      rewrite M. split.
      * intros (_ & L & EQ). split; [exact L|]. split; [lia|]. intros _ q Q. rewrite EQ. apply list_max_ge.
      * intros (L & NE & H). split; [lia|]. split; [exact L|]. destruct (list_max_in l ltac:(discriminate)) as (q & Q & EQ).
        pose proof (H eq_refl q Q). pose proof (list_max_ge l p). lia.
  - inversion E; subst sel. rewrite NZ. intuition (try discriminate; lia).
Qed.
Lemma line_range_some nanfull counts ab : line_range nanfull counts = Ok (Some ab) -> hull (line_ok nanfull counts) ab.
Proof.
  unfold line_range. destruct (if nanfull then _ else _) as [sel|e] eqn:E; cbn [bind]; [|discriminate].
  pose proof (line_sel _ _ _ E) as IN. destruct (argwhere 0 sel) as [|i t] eqn:A; [discriminate|]. intros H. inversion H; subst.
  destruct (argwhere_ends _ _ _ _ A) as [L B]. exists i, (last (i :: t) 0). split; [reflexivity|].
  split; [apply IN; left; reflexivity|]. split; [apply IN; exact L|]. intros p P. apply B, IN, P.
Qed.
Lemma line_range_none nanfull counts : line_range nanfull counts = Ok None -> forall p, nth p counts 0 = 0.
Proof.
  unfold line_range. destruct (if nanfull then _ else _) as [sel|e] eqn:E; cbn [bind]; [|discriminate].
  pose proof (line_sel _ _ _ E) as IN. destruct (argwhere 0 sel) as [|i t] eqn:A; [|discriminate]. intros _ p.
  destruct (Nat.eq_dec (nth p counts 0) 0) as [H|H]; [exact H|]. exfalso.
  assert (NN : counts <> []) by (intros ->; destruct p; apply H; reflexivity).
  destruct (list_max_in counts NN) as (q & Q & EQ). apply (IN q). split; [exact Q|]. pose proof (list_max_ge counts p).
  split; [lia|]. intros _ r R. rewrite EQ. apply list_max_ge.
Qed.
Lemma line_range_total nanfull counts : (nanfull = false \/ counts <> []) -> exists r, line_range nanfull counts = Ok r.
Proof.
  intros H. unfold line_range. destruct nanfull.
  - destruct counts; [destruct H; congruence|]. cbn [bind]. destruct (argwhere 0 _); eexists; reflexivity.
  - cbn [bind]. destruct (argwhere 0 _); eexists; reflexivity.
Qed.
Lemma line_range_empty : line_range true [] = Err ValueError.
Proof. reflexivity. Qed.
Lemma line_counts_nth mk d p : p < nth d (shape mk) 0 -> nth p (line_counts mk d) 0 = line_size mk d p.
Proof.
  intros L. unfold line_counts.
  assert (N : nth_error (seq 0 (nth d (shape mk) 0)) p = Some p).
  { rewrite (nth_error_nth' _ 0) by (rewrite seq_length; exact L). rewrite seq_nth by exact L. reflexivity. }
  apply (map_nth_error (fun p => count (fun j => (nth d j 0 =? p) && at_ mk j) (indices (shape mk)))) in N.
  rewrite (nth_error_nth _ _ 0 N). reflexivity.
Qed.
Lemma line_counts_length mk d : length (line_counts mk d) = nth d (shape mk) 0.
Proof. unfold line_counts. rewrite map_length, seq_length. reflexivity. Qed.
Lemma line_chosen nanfull mk d p : line_ok nanfull (line_counts mk d) p <-> chosen nanfull mk d p.
Proof.
  unfold line_ok, chosen. rewrite line_counts_length. split.
  - intros (L & NZ & H). split; [exact L|]. rewrite line_counts_nth in NZ by exact L. apply line_size_pos in NZ. destruct nanfull; [|exact NZ].
    split; [exact NZ|]. intros q Q. specialize (H eq_refl q Q). rewrite !line_counts_nth in H by assumption. exact H.
  - intros (L & H). split; [exact L|]. rewrite line_counts_nth by exact L. destruct nanfull.
    + destruct H as [N F]. split; [now apply line_size_pos|]. intros _ q Q. rewrite line_counts_nth by exact Q. now apply F.
    + split; [now apply line_size_pos|discriminate].
Qed.

(* ---- the region ---- *)
Definition of_grid (k q : nat) : nat := if q <? k then q else q - 1.
Lemma ranges_some nanfull mk k ns : forall n igrid imask roi, imask = (if igrid <=? k then igrid else igrid - 1) ->
  ranges nanfull mk (Z.of_nat k) ns igrid imask n = Ok (Some roi) ->
  length roi = n /\ forall q ab, nth_error roi q = Some ab ->
    if igrid + q =? k then ab = (0%Z, Z.of_nat ns)
    else line_range nanfull (line_counts mk (of_grid k (igrid + q))) = Ok (Some ab).
Proof.
  induction n as [|n IH]; intros igrid imask roi I E; cbn [ranges] in E.
  - inversion E; subst. split; [reflexivity|]. intros q ab H. destruct q; discriminate H.
  - destruct (Z.eqb_spec (Z.of_nat igrid) (Z.of_nat k)) as [EK|NK].
    + assert (igrid = k) by lia. subst igrid. destruct (ranges _ _ _ _ _ _ n) as [[r|]|e] eqn:R; cbn [bind option_map] in E; try discriminate E.
      assert (E' : roi = (0%Z, Z.of_nat ns) :: r) by congruence. subst roi. clear E.
      apply IH in R; [|subst imask; destruct (Nat.leb_spec k k), (Nat.leb_spec (S k) k); lia]. destruct R as [L H].
      split; [cbn [length]; lia|]. intros [|q] ab N; cbn [nth_error] in N.
      * rewrite Nat.add_0_r, Nat.eqb_refl. congruence.
      * replace (k + S q) with (S k + q) by lia. apply H. exact N.
    + destruct (imask <? length (shape mk)); [|discriminate E]. destruct (line_range nanfull (line_counts mk imask)) as [[ab0|]|e] eqn:LR; cbn [bind] in E; try discriminate E.
      destruct (ranges _ _ _ _ _ _ n) as [[r|]|e] eqn:R; cbn [bind option_map] in E; try discriminate E.
      assert (E' : roi = ab0 :: r) by congruence. subst roi. clear E.
      apply IH in R; [|subst imask; destruct (Nat.leb_spec igrid k), (Nat.leb_spec (S igrid) k); lia]. destruct R as [L H].
      split; [cbn [length]; lia|]. intros [|q] ab N; cbn [nth_error] in N.
      * rewrite Nat.add_0_r. destruct (Nat.eqb_spec igrid k); [lia|]. inversion N; subst ab. rewrite <- LR. do 2 f_equal. subst imask.
        unfold of_grid. destruct (Nat.leb_spec igrid k), (Nat.ltb_spec igrid k); lia.
      * replace (igrid + S q) with (S igrid + q) by lia. apply H. exact N.
Qed.
Lemma ranges_total nanfull mk k ns N : length (shape mk) = N - 1 -> k < N ->
  (forall d, d < N - 1 -> exists r, line_range nanfull (line_counts mk d) = Ok r) ->
  forall n igrid imask, imask = (if igrid <=? k then igrid else igrid - 1) -> igrid + n = N ->
  exists r, ranges nanfull mk (Z.of_nat k) ns igrid imask n = Ok r /\
    (r = None -> exists d, d < N - 1 /\ line_range nanfull (line_counts mk d) = Ok None) /\
    (r <> None -> forall q, igrid <= q < N -> q <> k -> line_range nanfull (line_counts mk (of_grid k q)) <> Ok None).
Proof.
  intros LM KN T. induction n as [|n IH]; intros igrid imask I L; cbn [ranges].
  - exists (Some []). split; [reflexivity|]. split; [discriminate|]. intros _ q Q. lia.
  - destruct (Z.eqb_spec (Z.of_nat igrid) (Z.of_nat k)) as [EK|NK].
    + assert (igrid = k) by lia. subst igrid.
      destruct (IH (S k) imask) as (r & R & RN & RS); [subst imask; destruct (Nat.leb_spec k k), (Nat.leb_spec (S k) k); lia|lia|].
      rewrite R. cbn [bind]. eexists. split; [reflexivity|]. destruct r as [r|]; cbn [option_map]; split; try discriminate; try (intros; congruence).
      * intros _ q Q NE. apply RS; [discriminate|lia|exact NE].
      * intros _. apply RN. reflexivity.
    + assert (IM : imask < N - 1) by (subst imask; destruct (Nat.leb_spec igrid k); lia).
      rewrite LM. destruct (Nat.ltb_spec imask (N - 1)); [|lia]. destruct (T imask IM) as ([ab|] & LR); rewrite LR; cbn [bind].
      * destruct (IH (S igrid) (S imask)) as (r & R & RN & RS); [subst imask; destruct (Nat.leb_spec igrid k), (Nat.leb_spec (S igrid) k); lia|lia|].
        rewrite R. cbn [bind]. eexists. split; [reflexivity|]. destruct r as [r|]; cbn [option_map]; split; try discriminate; try (intros; congruence).
        -- intros _ q Q NE. destruct (Nat.eq_dec q igrid) as [->|NI].
           ++ replace (of_grid k igrid) with imask; [congruence|]. subst imask. unfold of_grid. destruct (Nat.leb_spec igrid k), (Nat.ltb_spec igrid k); lia.
           ++ apply RS; [discriminate|lia|exact NE].
        -- intros _. apply RN. reflexivity.
      * exists None. split; [reflexivity|]. split; [intros _; exists imask; auto|congruence].
Qed.
Lemma nth_del k q : forall (sh : list nat), nth q (del k sh) 0 = nth (if q <? k then q else S q) sh 0.
Proof.
  revert q. induction k as [|k IH]; intros q [|n sh]; cbn [del].
  - destruct (q <? 0); destruct q; reflexivity.
  - destruct (Nat.ltb_spec q 0); [lia|]. reflexivity.
  - destruct (q <? S k), q; reflexivity.
  - destruct q; [reflexivity|]. cbn [nth]. rewrite IH. destruct (Nat.ltb_spec q k), (Nat.ltb_spec (S q) (S k)); try reflexivity; lia.
Qed.
Lemma dim_nat N k : k < N -> dimension N (Z.of_nat k) k.
Proof. split; auto. Qed.
Theorem roi_ok : forall sliced nanfull m g k roi, k < length (shape g) -> calccroproi sliced nanfull m g (Z.of_nat k) = Ok (Some roi) ->
  exists mk, shape mk = del k (shape g) /\ (forall j, inside (shape mk) j -> (at_ mk j = true <-> valid m g k j)) /\
  length roi = length (shape g) /\ nth_error roi k = Some (0%Z, Z.of_nat (nth k (shape g) 0)) /\
  forall d ab, nth_error roi (if d <? k then d else S d) = Some ab -> hull (chosen nanfull mk d) ab.
Proof.
  intros sliced nanfull m g k roi K E. unfold calccroproi in E. destruct (mask_ok sliced m g _ k (dim_nat _ _ K)) as (mk & EM & S & V).
  rewrite EM in E. cbn [bind] in E. rewrite (proj1 (dimension_pos _ _ _) (dim_nat _ _ K)) in E. cbn [bind] in E.
  apply ranges_some in E; [|reflexivity]. destruct E as [L H]. exists mk. split; [exact S|]. split; [exact V|]. split; [exact L|]. split.
  - destruct (nth_error roi k) as [ab|] eqn:N; [|apply nth_error_None in N; lia]. specialize (H k ab N). cbn [plus] in H. rewrite Nat.eqb_refl in H. congruence.
  - intros d ab N. specialize (H _ _ N). cbn [plus] in H.
    assert (NE : (if d <? k then d else Datatypes.S d) <> k) by (destruct (Nat.ltb_spec d k); lia). apply Nat.eqb_neq in NE. rewrite NE in H.
    assert (OG : of_grid k (if d <? k then d else Datatypes.S d) = d).
    { unfold of_grid. destruct (Nat.ltb_spec d k) as [H1|H1]; [destruct (Nat.ltb_spec d k); lia|destruct (Nat.ltb_spec (Datatypes.S d) k); lia]. }
    rewrite OG in H. apply line_range_some in H. destruct H as (i & j & E & Pi & Pj & B). exists i, j.
    split; [exact E|]. split; [now apply line_chosen|]. split; [now apply line_chosen|]. intros p P. apply B. now apply line_chosen.
Qed.
Theorem roi_total : forall sliced nanfull m g k, k < length (shape g) ->
  (nanfull = false \/ forall d, d < length (shape g) -> d <> k -> 0 < nth d (shape g) 0) ->
  exists r, calccroproi sliced nanfull m g (Z.of_nat k) = Ok r /\
    (1 < length (shape g) -> (r = None <-> ~ exists j, inside (del k (shape g)) j /\ valid m g k j)).
Proof.
  intros sliced nanfull m g k K NF. unfold calccroproi. destruct (mask_ok sliced m g _ k (dim_nat _ _ K)) as (mk & EM & S & V).
  rewrite EM. cbn [bind]. rewrite (proj1 (dimension_pos _ _ _) (dim_nat _ _ K)). cbn [bind].
  assert (LS : length (shape mk) = length (shape g) - 1) by (rewrite S; now apply del_length).
  assert (T : forall d, d < length (shape g) - 1 -> exists r, line_range nanfull (line_counts mk d) = Ok r).
  { intros d D. apply line_range_total. destruct NF as [NF|NF]; [left; exact NF|right]. intros E.
    apply (f_equal (@length nat)) in E. rewrite line_counts_length, S, nth_del in E. cbn [length] in E.
    assert (0 < nth (if d <? k then d else Datatypes.S d) (shape g) 0) by (apply NF; destruct (Nat.ltb_spec d k); lia). lia. }
  destruct (ranges_total nanfull mk k (nth k (shape g) 0) (length (shape g)) LS K T (length (shape g)) 0 0 eq_refl eq_refl) as (r & R & RN & RS).
  exists r. split; [exact R|]. intros L1. split.
  - intros H (j & J & VJ). destruct (RN H) as (d & D & LR). rewrite <- S in J. apply V in VJ; [|exact J].
    assert (P : nth d j 0 < nth d (shape mk) 0) by (apply inside_nth; [exact J|lia]).
    pose proof (line_range_none _ _ LR (nth d j 0)) as Z. rewrite line_counts_nth in Z by exact P.
    apply (proj2 (line_size_pos mk d (nth d j 0))); [|exact Z]. exists j. split; [exact J|]. split; [reflexivity|exact VJ].
  - intros NV. destruct r as [r|]; [|reflexivity]. exfalso. specialize (RS ltac:(discriminate)).
    set (q := if k =? 0 then 1 else 0). assert (Q : q < length (shape g) /\ q <> k) by (unfold q; destruct (Nat.eqb_spec k 0); lia).
    specialize (RS q ltac:(lia) ltac:(lia)). destruct (T (of_grid k q)) as (x & X); [unfold of_grid; destruct (Nat.ltb_spec q k); lia|].
    destruct x as [ab|]; [|contradiction]. apply line_range_some in X. destruct X as (i & _ & _ & P & _). apply line_chosen in P. destruct P as [_ P].
    assert (NE : nonempty_line mk (of_grid k q) i) by (destruct nanfull; [exact (proj1 P)|exact P]). destruct NE as (j & J & _ & VJ).
    apply NV. exists j. rewrite <- S. split; [exact J|]. apply V; assumption.
Qed.
Theorem roi_empty : forall sliced m g k d, k < length (shape g) -> d < length (shape g) -> d <> k -> nth d (shape g) 0 = 0 ->
  calccroproi sliced true m g (Z.of_nat k) = Err ValueError \/ calccroproi sliced true m g (Z.of_nat k) = Ok None.
Proof.
  intros sliced m g k d K D NE Z. unfold calccroproi. destruct (mask_ok sliced m g _ k (dim_nat _ _ K)) as (mk & EM & S & V).
  rewrite EM. cbn [bind]. rewrite (proj1 (dimension_pos _ _ _) (dim_nat _ _ K)). cbn [bind].
  assert (LS : length (shape mk) = length (shape g) - 1) by (rewrite S; now apply del_length).
  assert (G : forall n igrid imask, imask = (if igrid <=? k then igrid else igrid - 1) -> igrid + n = length (shape g) -> igrid <= d ->
    ranges true mk (Z.of_nat k) (nth k (shape g) 0) igrid imask n = Err ValueError \/ ranges true mk (Z.of_nat k) (nth k (shape g) 0) igrid imask n = Ok None).
  { induction n as [|n IH]; intros igrid imask I L LD; [lia|]. cbn [ranges]. destruct (Z.eqb_spec (Z.of_nat igrid) (Z.of_nat k)) as [EK|NK].
    - destruct (IH (Datatypes.S igrid) imask) as [H|H]; [subst imask; destruct (Nat.leb_spec igrid k), (Nat.leb_spec (Datatypes.S igrid) k); lia|lia|lia| |];
        rewrite H; cbn [bind option_map]; auto.
    - rewrite LS. destruct (Nat.ltb_spec imask (length (shape g) - 1)); [|subst imask; destruct (Nat.leb_spec igrid k); lia].
      destruct (Nat.eq_dec igrid d) as [->|ND].
      + assert (LC : line_counts mk imask = []).
        { apply length_zero_iff_nil. rewrite line_counts_length, S, nth_del.
          assert (EI : (if imask <? k then imask else Datatypes.S imask) = d).
          { subst imask. destruct (Nat.leb_spec d k); [destruct (Nat.ltb_spec d k); lia|destruct (Nat.ltb_spec (d - 1) k); lia]. }
          rewrite EI. exact Z. }
        rewrite LC, line_range_empty. left. reflexivity.
      + destruct (line_range true (line_counts mk imask)) as [[ab|]|e] eqn:LR; cbn [bind]; auto.
        * destruct (IH (Datatypes.S igrid) (Datatypes.S imask)) as [H0|H0]; [subst imask; destruct (Nat.leb_spec igrid k), (Nat.leb_spec (Datatypes.S igrid) k); lia|lia|lia| |];
            rewrite H0; cbn [bind option_map]; auto.
        * left. destruct (line_counts mk imask) eqn:LC; [rewrite line_range_empty in LR; congruence|].
          destruct (line_range_total true (n0 :: l)) as (r & R); [right; discriminate|]. congruence. }
  apply G; [reflexivity|reflexivity|lia].
Qed.
Lemma Forall2_nth {A B} (R : A -> B -> Prop) db : forall l1 l2, length l1 = length l2 ->
  (forall i a, nth_error l1 i = Some a -> R a (nth i l2 db)) -> Forall2 R l1 l2.
Proof.
  induction l1 as [|a l1 IH]; intros [|b l2] L H; cbn [length] in L; try lia; constructor.
  - exact (H 0 a eq_refl).
  - apply IH; [lia|]. intros i x N. exact (H (S i) x N).
Qed.
Theorem roi_within : forall sliced nanfull m g k roi, k < length (shape g) -> calccroproi sliced nanfull m g (Z.of_nat k) = Ok (Some roi) ->
  within (shape g) roi.
Proof.
  intros sliced nanfull m g k roi K E. destruct (roi_ok _ _ _ _ _ _ K E) as (mk & S & V & L & RK & H).
  apply (Forall2_nth _ 0); [exact L|]. intros q ab N. destruct (Nat.eq_dec q k) as [->|NE].
  - assert (ab = (0%Z, Z.of_nat (nth k (shape g) 0))) by congruence. subst ab. cbn [fst snd]. lia.
  - assert (LQ : q < length (shape g)) by (rewrite <- L; apply nth_error_Some; congruence).
    set (d := if q <? k then q else q - 1).
    assert (DQ : (if d <? k then d else Datatypes.S d) = q).
    { unfold d. destruct (Nat.ltb_spec q k) as [H1|H1]; [destruct (Nat.ltb_spec q k); lia|destruct (Nat.ltb_spec (q - 1) k); lia]. }
    specialize (H d ab). rewrite DQ in H. destruct (H N) as (i & j & -> & [Pi _] & [Pj Cj] & B). cbn [fst snd].
    rewrite S, nth_del, DQ in Pi, Pj. assert (CJ : chosen nanfull mk d j) by (split; [rewrite S, nth_del, DQ; exact Pj|exact Cj]). apply B in CJ. lia.
Qed.
Lemma nth_error_ins {A} k (x : A) : forall l q, k <= length l -> q <> k -> nth_error (ins k x l) q = nth_error l (if q <? k then q else q - 1).
Proof.
  induction k as [|k IH]; intros [|a l] q L NE; cbn [ins length] in *; try lia.
  - destruct q as [|q]; [lia|]. cbn [nth_error]. destruct (Nat.ltb_spec (S q) 0); [lia|]. cbn. now rewrite Nat.sub_0_r.
  - destruct q as [|q]; [lia|]. cbn [nth_error]. destruct (Nat.ltb_spec (S q) 0); [lia|]. cbn. now rewrite Nat.sub_0_r.
  - destruct q as [|q]; [reflexivity|]. cbn [nth_error]. rewrite IH by lia. destruct (Nat.ltb_spec q k), (Nat.ltb_spec (S q) (S k)); try lia; [reflexivity|].
    destruct q as [|q]; [lia|]. cbn. now rewrite Nat.sub_0_r.
Qed.
Lemma cover_shift xs roi : Forall2 (fun x ab => (0 <= fst ab)%Z /\ (fst ab <= Z.of_nat x < snd ab)%Z) xs roi ->
  exists idx, inside (roi_shape roi) idx /\ shift roi idx = xs.
Proof.
  induction 1 as [|x [a b] xs roi [H0 H] F (idx & I & S)]; [exists []; split; [constructor|reflexivity]|]. cbn [fst snd] in *.
  exists (x - Z.to_nat a :: idx). split; [constructor; [cbn [fst snd]; lia|exact I]|]. cbn [shift]. rewrite S. f_equal. lia.
Qed.
(* nothing valid is lost *)
Theorem crop_keeps : forall (A : Type) sliced sliced' m g k j fill (din : arr A), k < length (shape g) -> shape din = shape g ->
  inside (del k (shape g)) j -> valid m g k j ->
  exists roi out, calccroproi sliced false m g (Z.of_nat k) = Ok (Some roi) /\ crop sliced' (Z.of_nat k) (Some roi) fill din = Ok out /\
    forall i, i < nth k (shape g) 0 -> exists idx, inside (shape out) idx /\ at_ out idx = at_ din (ins k i j).
Proof.
  intros A sliced sliced' m g k j fill din K SD J VJ.
  destruct (roi_total sliced false m g k K (or_introl eq_refl)) as (r & R & RN).
  destruct r as [roi|].
  2:{ exfalso. destruct (Nat.lt_ge_cases 1 (length (shape g))) as [L1|L1]; [apply (RN L1); [reflexivity|eauto]|].
      unfold calccroproi in R. destruct (mask_ok sliced m g _ k (dim_nat _ _ K)) as (mk & EM & _). rewrite EM in R. cbn [bind] in R.
      rewrite (proj1 (dimension_pos _ _ _) (dim_nat _ _ K)) in R. cbn [bind] in R. assert (LG : length (shape g) = 1) by lia. assert (k = 0) by lia. subst k.
      rewrite LG in R. cbn in R. discriminate R. }
  pose proof (roi_within _ _ _ _ _ _ K R) as W. destruct (roi_ok _ _ _ _ _ _ K R) as (mk & S & V & L & RK & H).
  destruct (crop_ok A sliced' (Z.of_nat k) k roi fill din) as (out & O & SO & VO);
    [rewrite SD; now apply dim_nat|rewrite SD; exact W|rewrite SD; exact RK|].
  exists roi, out. split; [exact R|]. split; [exact O|]. intros i I.
  assert (COV : Forall2 (fun x ab => (0 <= fst ab)%Z /\ (fst ab <= Z.of_nat x < snd ab)%Z) (ins k i j) roi).
  { pose proof (inside_length _ _ J) as LJ. rewrite del_length in LJ by exact K.
    apply (Forall2_nth _ (0%Z, 0%Z)); [rewrite ins_length; lia|]. intros q x N.
    assert (LQ : q < length roi).
    { assert (LI : q < length (ins k i j)) by (apply nth_error_Some; congruence). rewrite ins_length in LI. lia. }
    destruct (nth_error roi q) as [ab|] eqn:NR; [|apply nth_error_None in NR; lia]. rewrite (nth_error_nth _ _ _ NR).
    destruct (Nat.eq_dec q k) as [->|NE].
    - assert (ab = (0%Z, Z.of_nat (nth k (shape g) 0))) by congruence. subst ab. cbn [fst snd].
      apply (nth_error_nth _ _ 0) in N. rewrite nth_ins in N by lia. lia.
    - rewrite nth_error_ins in N by lia. set (d := if q <? k then q else q - 1) in *.
      assert (DQ : (if d <? k then d else Datatypes.S d) = q).
      { unfold d. destruct (Nat.ltb_spec q k) as [H1|H1]; [destruct (Nat.ltb_spec q k); lia|destruct (Nat.ltb_spec (q - 1) k); lia]. }
      specialize (H d ab). rewrite DQ in H. destruct (H NR) as (i0 & j0 & -> & _ & _ & B). cbn [fst snd].
      assert (P : i0 <= x <= j0).
      { rewrite <- S in J. apply B. apply (nth_error_nth _ _ 0) in N.
        assert (LD : d < length (shape mk)) by (rewrite S, del_length by exact K; unfold d; destruct (Nat.ltb_spec q k); lia).
        split; [rewrite <- N; apply inside_nth; [exact J|exact LD]|]. exists j. split; [exact J|]. split; [exact N|]. apply V; assumption. }
      lia. }
  destruct (cover_shift _ _ COV) as (idx & II & SH). exists idx. rewrite SO. split; [exact II|]. rewrite (VO idx II), SH. reflexivity.
Qed.
Lemma line_counts_same mk mk' d : same mk mk' -> line_counts mk d = line_counts mk' d.
Proof.
  intros [S V]. unfold line_counts. rewrite <- S. apply map_ext. intros p. unfold count. f_equal.
  assert (IN : forall j, In j (indices (shape mk)) -> inside (shape mk) j) by (intros j; apply (proj2 (indices_ok _))).
  induction (indices (shape mk)) as [|j l IH]; cbn [filter]; [reflexivity|].
  rewrite (V j) by (apply IN; left; reflexivity). rewrite IH by (intros j' J; apply IN; right; exact J). reflexivity.
Qed.
Theorem roi_same : forall nanfull m g k, k < length (shape g) ->
  calccroproi true nanfull m g (Z.of_nat k) = calccroproi false nanfull m g (Z.of_nat k).
Proof.
  intros nanfull m g k K. unfold calccroproi.
  destruct (mask_ok true m g _ k (dim_nat _ _ K)) as (mk & EM & S & V). destruct (mask_ok false m g _ k (dim_nat _ _ K)) as (mk' & EM' & S' & V').
  rewrite EM, EM'. cbn [bind]. destruct (position _ _) as [k'|e]; cbn [bind]; [|reflexivity].
  assert (SA : same mk mk').
  { split; [congruence|]. intros j J. pose proof (V j J). assert (J' : inside (shape mk') j) by (rewrite S', <- S; exact J). pose proof (V' j J').
    apply Bool.eq_iff_eq_true. tauto. }
  assert (G : forall n igrid imask, ranges nanfull mk (Z.of_nat k) (nth k' (shape g) 0) igrid imask n = ranges nanfull mk' (Z.of_nat k) (nth k' (shape g) 0) igrid imask n).
  { induction n; intros igrid imask; cbn [ranges]; [reflexivity|]. rewrite (line_counts_same mk mk' imask SA), !IHn, (proj1 SA). reflexivity. }
  apply G.
Qed.
Theorem crop_same : forall (A : Type) stackdim k roi fill (din : arr A), dimension (length (shape din)) stackdim k ->
  within (shape din) roi -> nth_error roi k = Some (0%Z, Z.of_nat (nth k (shape din) 0)) ->
  exists o1 o2, crop true stackdim (Some roi) fill din = Ok o1 /\ crop false stackdim (Some roi) fill din = Ok o2 /\ same o1 o2.
Proof.
  intros A stackdim k roi fill din D W R. destruct (crop_ok A true stackdim k roi fill din D W R) as (o1 & E1 & S1 & V1).
  destruct (crop_ok A false stackdim k roi fill din D W R) as (o2 & E2 & S2 & V2). exists o1, o2. split; [exact E1|]. split; [exact E2|].
  split; [congruence|]. intros i I. rewrite S1 in I. rewrite V1, V2 by exact I. reflexivity.
Qed.
Theorem grid_same : forall (A : Type) (f : A -> A) stackdim k fill (din : arr A), dimension (length (shape din)) stackdim k ->
  exists o1 o2, execute_grid (fun d => Ok (amap f d)) true stackdim fill din = Ok o1 /\
                execute_grid (fun d => Ok (amap f d)) false stackdim fill din = Ok o2 /\
                shape o1 = shape din /\ shape o2 = shape din /\
                forall i, inside (shape din) i -> at_ o1 i = f (at_ din i) /\ at_ o2 i = f (at_ din i).
Proof.
  intros A f stackdim k fill din D. destruct (grid_ok A f true stackdim k fill din D) as (o1 & E1 & S1 & V1).
  destruct (grid_ok A f false stackdim k fill din D) as (o2 & E2 & S2 & V2). exists o1, o2. split; [exact E1|]. split; [exact E2|].
  split; [exact S1|]. split; [exact S2|]. intros i I. split; [apply V1; rewrite S1; exact I|apply V2; rewrite S2; exact I].
Qed.
Theorem replace_same : forall stackdim k old new fill (din : arr cell), dimension (length (shape din)) stackdim k ->
  exists o1 o2, execute_grid (replace old new) true stackdim fill din = Ok o1 /\
                execute_grid (replace old new) false stackdim fill din = Ok o2 /\
                shape o1 = shape din /\ shape o2 = shape din /\
                forall i, inside (shape din) i -> at_ o1 i = at_ o2 i /\
                  (marked old (at_ din i) = true -> at_ o1 i = new) /\ (marked old (at_ din i) = false -> at_ o1 i = at_ din i).
Proof.
  intros stackdim k old new fill din D.
  destruct (grid_same cell (fun c => if marked old c then new else c) stackdim k fill din D) as (o1 & o2 & E1 & E2 & S1 & S2 & V).
  exists o1, o2. split; [exact E1|]. split; [exact E2|]. split; [exact S1|]. split; [exact S2|]. intros i I. destruct (V i I) as [V1 V2].
  rewrite V1, V2. split; [reflexivity|]. destruct (marked old (at_ din i)); split; congruence.
Qed.
(* a process of a whole slice that treats every slice on its own *)
Theorem sum_refuted : exists (process : arr nat -> result (arr nat)) (din o1 o2 : arr nat),
  execute_grid process true 0 0 din = Ok o1 /\ execute_grid process false 0 0 din = Ok o2 /\ shape o1 = shape o2 /\ ~ same o1 o2.
Proof.
  exists (fun d => Ok (amap (fun x => x + list_max (map (at_ d) (indices (shape d)))) d)).
  exists (mkArr [2; 2] (fun i => match i with [0; _] => 1 | _ => 5 end)). eexists. eexists.
  split; [vm_compute; reflexivity|]. split; [vm_compute; reflexivity|]. split; [reflexivity|]. intros [_ H].
  specialize (H [0; 0]). assert (I : inside [2; 2] [0; 0]) by (repeat constructor). specialize (H I). vm_compute in H. discriminate H.
Qed.
Theorem axes_refuted : exists (d : Z) axes, signal_axes d (grid_axes d 9 axes) <> Ok axes.
Proof. exists (-1)%Z, [1; 2]. vm_compute. discriminate. Qed.
Definition gg : arr cell := mkArr [2; 3; 4] (fun i => match i with [_; 0; _] | [1; 2; 0] => None | _ => Some 1%Qc end).
Theorem roi_negative_refuted : exists g, length (shape g) = 3 /\ (exists j, inside (del 2 (shape g)) j /\ valid NpNan g 2 j) /\
  calccroproi true true NpNan g (-1) = Err IndexError.
Proof.
  exists gg. split; [reflexivity|]. split; [|vm_compute; reflexivity]. exists [0; 1]. split; [repeat constructor|]. intros i I. reflexivity.
Qed.
Theorem roi_othernan_refuted : exists g : arr cell, at_ g [0; 0; 0] = None /\
  calccroproi false false OtherNan g 0 = Ok (Some [(0, 2); (0, 3); (0, 4)]%Z) /\
  calccroproi false false NpNan g 0 = Ok (Some [(0, 2); (1, 3); (0, 4)]%Z).
Proof. exists gg. split; [reflexivity|]. split; vm_compute; reflexivity. Qed.
(* a region given by the user *)
Theorem userroi_ok : forall roi g k, k < length (shape g) -> length roi = length (shape g) - 1 ->
  exists r, convertuserroi roi g (Z.of_nat k) = Ok r /\ length r = length (shape g) /\
    nth_error r k = Some (0%Z, Z.of_nat (nth k (shape g) 0)) /\ del k r = roi.
Proof.
  intros roi g k K L. unfold convertuserroi. rewrite (proj1 (dimension_pos _ _ _) (dim_nat _ _ K)). cbn [bind]. eexists. split; [reflexivity|].
  unfold py_insert. destruct (Z.ltb_spec (Z.of_nat k) 0); [lia|]. rewrite Nat2Z.id, ins_length. split; [lia|]. split; [|apply del_ins; lia].
  assert (KL : k <= length roi) by lia. clear -KL. revert roi KL. generalize (0%Z, Z.of_nat (nth k (shape g) 0)) as x. intros x.
  induction k; intros [|a l] H; cbn [ins nth_error length] in *; try reflexivity; try lia. apply IHk. lia.
Qed.
Theorem userroi_negative_refuted : exists roi g r, length (shape g) = 3 /\ convertuserroi roi g (-1) = Ok r /\ nth_error r 2 <> Some (0%Z, Z.of_nat (nth 2 (shape g) 0)).
Proof. exists [(0, 2); (1, 3)]%Z, gg. eexists. split; [reflexivity|]. split; [vm_compute; reflexivity|]. vm_compute. discriminate. Qed.
(* a region that counts from the end, as Python slices do *)
Theorem userroi_end_refuted : exists (roi : list (Z * Z)) (g : arr cell) (o : arr cell),
  crop false 0 (Some roi) None g = Ok o /\ shape o = [2; 2; 4] /\ crop true 0 (Some roi) None g = Err ValueError.
Proof. exists [(0, 2); (0, -1); (0, 4)]%Z, gg. eexists. split; [vm_compute; reflexivity|]. split; vm_compute; reflexivity. Qed.
Theorem full_refuted : exists g roi out, calccroproi false true NpNan g 0 = Ok (Some roi) /\ crop false 0 (Some roi) None g = Ok out /\
  exists idx, inside (shape out) idx /\ at_ out idx = None.
Proof.
  exists (mkArr [1; 3; 3] (fun i => match i with [_; 0; 0] | [_; 1; 1] | [_; 2; 2] => None | _ => Some 1%Qc end)), [(0, 1); (0, 3); (0, 3)]%Z.
  eexists. split; [vm_compute; reflexivity|]. split; [vm_compute; reflexivity|]. exists [0; 1; 1]. split; [repeat constructor|vm_compute; reflexivity].
Qed.
