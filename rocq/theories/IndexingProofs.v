(* Proofs about utils/indexing.py *)
From Verif Require Export IndexingModel NumpyProofs.
Local Open Scope nat_scope.

(* ---- kinds of index entries ---- *)
Inductive kind : Type := KN | KI | KS | KA.
Definition kind_of (i : ind) : kind :=
  match i with New => KN | Num _ | NumB _ => KI | Ints _ | Bools _ => KA | _ => KS end.
Definition rkind (r : rent) : kind :=
  match r with RNew => KN | RInt _ => KI | RSl _ => KS | RAdv _ => KA end.

Lemma bind_Ok {A B} (r : result A) (f : A -> result B) b :
  bind r f = Ok b -> exists a, r = Ok a /\ f a = Ok b.
Proof. destruct r; cbn; [eauto|discriminate]. Qed.

Lemma resolve_kind n i r : resolve n i = Ok r -> rkind r = kind_of i.
Proof.
  destruct i; cbn; intros H; try discriminate; try (apply bind_Ok in H; destruct H as (a & _ & H));
    try (injection H as <-; reflexivity).
  destruct (Nat.eqb _ _); [|discriminate]. now injection H as <-.
Qed.

Lemma resolve_all_kind idx : forall s rs, resolve_all s idx = Ok rs -> map rkind rs = map kind_of idx.
Proof.
  induction idx as [|i idx IH]; intros s rs H.
  - destruct s; [|discriminate]. now injection H as <-.
  - assert ((i = New /\ exists rs', resolve_all s idx = Ok rs' /\ rs = RNew :: rs') \/
            (exists n s' r rs', s = n :: s' /\ resolve n i = Ok r /\ resolve_all s' idx = Ok rs' /\ rs = r :: rs')) as [[-> (rs' & H1 & ->)]|(n & s' & r & rs' & -> & H1 & H2 & ->)].
    { destruct i; cbn in H; [left|right..];
      [split; [reflexivity|]; apply bind_Ok in H; destruct H as (rs' & H1 & H2); injection H2 as <-; eauto|..];
      destruct s as [|n s]; try discriminate;
      apply bind_Ok in H; destruct H as (r & H1 & H2); apply bind_Ok in H2; destruct H2 as (rs' & H2 & H3);
      injection H3 as <-; exists n, s, r, rs'; auto. }
    + cbn. f_equal. eauto.
    + cbn. f_equal; [eauto using resolve_kind|eauto].
Qed.

(* inversion used all the time *)
Lemma resolve_all_cons i idx s rs : resolve_all s (i :: idx) = Ok rs ->
  (i = New /\ exists rs', resolve_all s idx = Ok rs' /\ rs = RNew :: rs') \/
  (i <> New /\ exists n s' r rs', s = n :: s' /\ resolve n i = Ok r /\ resolve_all s' idx = Ok rs' /\ rs = r :: rs').
Proof.
  intros H. destruct i; cbn in H; [left|right..];
    [split; [reflexivity|]; apply bind_Ok in H; destruct H as (rs' & H1 & H2); injection H2 as <-; eauto|..];
    (split; [discriminate|]); destruct s as [|n s]; try discriminate;
    apply bind_Ok in H; destruct H as (r & H1 & H2); apply bind_Ok in H2; destruct H2 as (rs' & H2 & H3);
    injection H3 as <-; exists n, s, r, rs'; auto.
Qed.

Lemma resolve_all_cons_ok i idx n s r rs : i <> New -> resolve n i = Ok r -> resolve_all s idx = Ok rs ->
  resolve_all (n :: s) (i :: idx) = Ok (r :: rs).
Proof. intros Hi H1 H2. destruct i; [congruence|..]; cbn [resolve_all]; rewrite H1; cbn; now rewrite H2. Qed.

Definition kflag (k : kind) : bool := match k with KA | KI => true | _ => false end.
Definition kadv (ks : list kind) : bool := existsb (fun k => match k with KA => true | _ => false end) ks.
Definition kpos (ks : list kind) : nat :=
  if contiguous (map kflag ks) then first_true (map kflag ks) else 0.

Lemma adv_pos_kind rs : adv_pos rs = kpos (map rkind rs).
Proof.
  unfold adv_pos, kpos. rewrite map_map.
  replace (map (fun x => kflag (rkind x)) rs) with (map adv_flag rs); [reflexivity|].
  apply map_ext. intros []; reflexivity.
Qed.
Lemma has_adv_kind rs : has_adv rs = kadv (map rkind rs).
Proof. unfold has_adv, kadv. induction rs as [|r rs IH]; cbn; [reflexivity|]. rewrite IH. now destruct r. Qed.

(* position of the list dimension is inside the result *)
Definition kkept (k : kind) : bool := match k with KN | KS => true | _ => false end.
Definition nkept (ks : list kind) : nat := length (filter kkept ks).
Lemma kept_length rs : length (kept_lens rs) = nkept (map rkind rs).
Proof.
  unfold kept_lens, nkept. induction rs as [|r rs IH]; cbn; [reflexivity|]. rewrite app_length, IH. destruct r; reflexivity.
Qed.
Lemma first_true_le ks : kadv ks = true -> first_true (map kflag ks) <= nkept ks.
Proof.
  unfold kadv, nkept. induction ks as [|k ks IH]; cbn; [discriminate|]. destruct k; cbn; intros H; try lia; apply IH in H; lia.
Qed.
Lemma kpos_le ks : kadv ks = true -> kpos ks <= nkept ks.
Proof. intros H. unfold kpos. destruct (contiguous _); [now apply first_true_le|lia]. Qed.

(* ---- contiguity of flags ---- *)
Lemma drop_while_spec b l : exists n, l = repeat b n ++ drop_while b l /\
  (match drop_while b l with [] => True | x :: _ => x = negb b end).
Proof.
  induction l as [|x l (n & IH1 & IH2)]; cbn; [exists 0; cbn; auto|].
  destruct (Bool.eqb_spec x b) as [->|Hne].
  - exists (S n). cbn. rewrite <- IH1. auto.
  - exists 0. cbn. split; [reflexivity|]. destruct x, b; congruence || reflexivity.
Qed.
Lemma all_false_repeat l : forallb negb l = true -> l = repeat false (length l).
Proof. induction l as [|[] l IH]; cbn; intros H; [reflexivity|discriminate|]. f_equal. auto. Qed.

Lemma drop_while_repeat b n l : drop_while b (repeat b n ++ l) = drop_while b l.
Proof. induction n as [|n IH]; cbn; [reflexivity|]. now rewrite Bool.eqb_reflx. Qed.
Lemma forallb_repeat_false n : forallb negb (repeat false n) = true.
Proof. induction n; auto. Qed.

Lemma contiguous_iff l : contiguous l = true <->
  exists a b c, l = repeat false a ++ repeat true b ++ repeat false c.
Proof.
  unfold contiguous. split.
  - intros H. destruct (drop_while_spec false l) as (a & Ha & _).
    destruct (drop_while_spec true (drop_while false l)) as (b & Hb & _).
    apply all_false_repeat in H. eexists a, b, _. rewrite <- H, <- Hb. exact Ha.
  - intros (a & b & c & ->). rewrite drop_while_repeat. destruct b as [|b].
    + cbn [repeat app]. rewrite <- (app_nil_r (repeat false c)), drop_while_repeat. reflexivity.
    + cbn [repeat app drop_while Bool.eqb].
      rewrite drop_while_repeat. destruct c; cbn; [reflexivity|]. apply forallb_repeat_false.
Qed.

Lemma first_true_repeat a b c : 0 < b -> first_true (repeat false a ++ repeat true b ++ repeat false c) = a.
Proof. intros H. destruct b; [lia|]. induction a as [|a IH]; cbn; [reflexivity|]. f_equal. exact IH. Qed.

Definition nfalse (l : list bool) : nat := length (filter negb l).
Lemma nfalse_app l m : nfalse (l ++ m) = nfalse l + nfalse m.
Proof. unfold nfalse. now rewrite filter_app, app_length. Qed.
Lemma nfalse_repeat n : nfalse (repeat false n) = n.
Proof. unfold nfalse. induction n; cbn in *; lia. Qed.
Lemma nfalse_repeat_true n : nfalse (repeat true n) = 0.
Proof. unfold nfalse. induction n; cbn in *; lia. Qed.

Lemma firstn_repeat {A} (x : A) n k : firstn k (repeat x n) = repeat x (min k n).
Proof. revert k. induction n as [|n IH]; intros [|k]; cbn; try reflexivity. now rewrite IH. Qed.
Lemma skipn_repeat {A} (x : A) n k : skipn k (repeat x n) = repeat x (n - k).
Proof. revert k. induction n as [|n IH]; intros [|k]; cbn; try reflexivity. apply IH. Qed.

(* fl: flags without the stacking axis; inserting False at ax *)
Definition fpos (l : list bool) : nat := if contiguous l then first_true l else 0.

Lemma first_true_nfalse_le l k : first_true l <= k -> In true l -> first_true l <= nfalse (firstn k l).
Proof.
  revert k. induction l as [|[] l IH]; intros k H Hi; cbn in *; [lia|lia|].
  destruct k; [lia|]. cbn. unfold nfalse in *. cbn. destruct Hi as [|Hi]; [discriminate|].
  specialize (IH k ltac:(lia) Hi). lia.
Qed.

Lemma insert_cons {A} k (x y : A) l : insert_at (S k) x (y :: l) = y :: insert_at k x l.
Proof. reflexivity. Qed.
Lemma first_true_insert l : forall ax, In true l -> first_true l < ax -> first_true (insert_at ax false l) = first_true l.
Proof.
  induction l as [|[] l IH]; intros [|ax] Hi H; cbn [first_true] in *; try lia; try reflexivity; try (now destruct Hi).
  rewrite insert_cons. cbn. f_equal. apply IH; [|lia]. destruct Hi; [discriminate|assumption].
Qed.

Lemma insert_repeat {A} (x : A) n k l : k <= n -> insert_at k x (repeat x n ++ l) = repeat x (S n) ++ l.
Proof.
  intros H. unfold insert_at. rewrite firstn_app, skipn_app, repeat_length.
  replace (k - n) with 0 by lia. cbn [firstn skipn]. rewrite app_nil_r, firstn_repeat, skipn_repeat, Nat.min_l by lia.
  change (x :: repeat x (n - k) ++ l) with ((repeat x (S (n - k))) ++ l). rewrite app_assoc, <- repeat_app.
  do 2 f_equal. lia.
Qed.

Lemma fpos_insert fl ax : ax <= length fl -> In true fl ->
  let r := nfalse (firstn ax fl) in
  let p := fpos (insert_at ax false fl) in
  let p' := fpos fl in
  (r < p -> r <= p') /\ (p <= r -> p' <= r).
Proof.
  intros Hax Ht r p p'.
  unfold fpos in p, p'.
  destruct (contiguous fl) eqn:Hc.
  - apply contiguous_iff in Hc. destruct Hc as (a & b & c & ->).
    assert (0 < b) as Hb.
    { destruct b; [|lia]. cbn in Ht. rewrite !in_app_iff in Ht. destruct Ht as [Ht|Ht]; apply repeat_spec in Ht; discriminate. }
    assert (p' = a) as -> by (subst p'; now apply first_true_repeat).
    destruct (Nat.le_gt_cases ax a) as [Hle|Hgt].
    + assert (r = ax) as ->.
      { subst r. rewrite firstn_app, repeat_length. replace (ax - a) with 0 by lia. cbn [firstn].
        rewrite app_nil_r, firstn_repeat, nfalse_repeat. lia. }
      subst p. rewrite insert_repeat by lia.
      assert (contiguous (repeat false (S a) ++ repeat true b ++ repeat false c) = true) as ->.
      { apply contiguous_iff. eauto. }
      rewrite first_true_repeat by lia. lia.
    + assert (p <= a) as Hp.
      { subst p. destruct (contiguous (insert_at _ _ _)); [|lia].
        rewrite first_true_insert; [rewrite first_true_repeat by lia; lia|assumption|rewrite first_true_repeat by lia; lia]. }
      assert (a <= r) as Hr.
      { subst r. rewrite firstn_app, repeat_length. rewrite firstn_repeat, nfalse_app, nfalse_repeat. lia. }
      split; lia.
  - subst p'. split; [|lia]. intros Hr. exfalso.
    subst p. destruct (contiguous (insert_at ax false fl)) eqn:Hc'; [|lia].
    apply contiguous_iff in Hc'. destruct Hc' as (a & b & c & E).
    enough (contiguous fl = true) by congruence.
    rewrite E in Hr.
    assert (0 < b) as Hb.
    { destruct b; [|lia].
      assert (In true (insert_at ax false fl)) as Hi by (apply In_insert_at; auto).
      rewrite E in Hi. cbn in Hi. rewrite in_app_iff in Hi. destruct Hi as [Hi|Hi]; apply repeat_spec in Hi; discriminate. }
    assert (fl = remove_at ax (repeat false a ++ repeat true b ++ repeat false c)) as ->.
    { rewrite <- E. now rewrite remove_insert_at. }
    assert (nth ax (repeat false a ++ repeat true b ++ repeat false c) true = false) as Hn.
    { rewrite <- E. now apply nth_insert_same. }
    apply contiguous_iff.
    destruct (Nat.lt_ge_cases ax a).
    + exists (a - 1), b, c. unfold remove_at. rewrite firstn_app, repeat_length, skipn_app, repeat_length.
      replace (ax - a) with 0 by lia. replace (S ax - a) with 0 by lia. cbn [firstn]. rewrite app_nil_r.
      rewrite skipn_O, firstn_repeat, skipn_repeat, app_assoc, <- repeat_app. do 2 f_equal. lia.
    + destruct (Nat.lt_ge_cases ax (a + b)).
      * rewrite app_nth2, repeat_length, app_nth1 in Hn by (rewrite ?repeat_length; lia).
        rewrite (repeat_spec b true (nth (ax - a) (repeat true b) true)) in Hn; [discriminate|].
        apply nth_In. rewrite repeat_length. lia.
      * exists a, b, (c - 1).
        unfold remove_at. rewrite !firstn_app, !repeat_length, !skipn_app, !repeat_length.
        rewrite !firstn_repeat, !skipn_repeat.
        replace (a - S ax) with 0 by lia. replace (b - (S ax - a)) with 0 by lia. cbn [repeat app].
        rewrite !Nat.min_r by lia. rewrite <- !app_assoc. do 2 f_equal.
        rewrite <- repeat_app. f_equal.
        assert (ax < a + b + c).
        { apply (f_equal (@length bool)) in E. rewrite length_insert_at, !app_length, !repeat_length in E. lia. }
        lia.
Qed.

(* ---- what the probes on small arrays give ---- *)
Definition nnew (ks : list kind) : nat := length (filter (fun k => match k with KN => false | _ => true end) ks).

Fixpoint presolve (A : list nat) (s : list nat) (ks : list kind) : list rent :=
  match ks with
  | [] => []
  | KN :: ks' => RNew :: presolve A s ks'
  | KI :: ks' => RInt 0 :: presolve A (tl s) ks'
  | KA :: ks' => RAdv A :: presolve A (tl s) ks'
  | KS :: ks' => RSl (seq 0 (hd 0 s)) :: presolve A (tl s) ks'
  end.
Fixpoint klens (s : list nat) (ks : list kind) : list nat :=
  match ks with
  | [] => []
  | KN :: ks' => 1 :: klens s ks'
  | KS :: ks' => hd 0 s :: klens (tl s) ks'
  | _ :: ks' => klens (tl s) ks'
  end.
Definition probe_gen (l : list Z) (i : ind) : ind :=
  if is_list i then Ints l else if is_num i then Num 0 else
  match i with New => New | _ => full end.

Lemma probe_resolve l A idx : forall s,
  (forall n, 1 <= n -> mapM (norm n) l = Ok A) ->
  length s = nnew (map kind_of idx) -> Forall (fun n => 1 <= n) s ->
  resolve_all s (map (probe_gen l) idx) = Ok (presolve A s (map kind_of idx)).
Proof.
  induction idx as [|i idx IH]; intros s Hl Hs Hp.
  - destruct s; [reflexivity|discriminate].
  - assert (forall n s', s = n :: s' -> Forall (fun n => 1 <= n) s') as Hp' by (intros n s' ->; now inversion Hp).
    assert (forall n s', s = n :: s' -> norm n 0 = Ok 0) as Hn.
    { intros n s' ->. inversion_clear Hp. unfold norm. now rewrite py_pos_nonneg by lia. }
    destruct i; cbn [map kind_of nnew filter length] in Hs; unfold nnew in Hs; cbn in Hs.
    1: { cbn. rewrite IH by (auto; exact Hs). reflexivity. }
    all: destruct s as [|n s]; try discriminate; injection Hs as Hs;
      specialize (IH s Hl Hs (Hp' _ _ eq_refl)); specialize (Hn _ _ eq_refl);
      cbn [map kind_of presolve hd tl]; unfold probe_gen at 1; cbn [is_list is_num]; unfold full;
      apply resolve_all_cons_ok; try discriminate; try exact IH; cbn [resolve];
      rewrite ?slice_all_positions, ?Hn; cbn; try reflexivity;
      rewrite Hl by (inversion_clear Hp; assumption); reflexivity.
Qed.

Lemma presolve_kind A ks : forall s, map rkind (presolve A s ks) = ks.
Proof. induction ks as [|[] ks IH]; intros s; cbn; try reflexivity; now rewrite IH. Qed.
Lemma presolve_kept A ks : forall s, kept_lens (presolve A s ks) = klens s ks.
Proof.
  unfold kept_lens. induction ks as [|[] ks IH]; intros s; cbn; rewrite ?IH, ?seq_length; reflexivity.
Qed.
Lemma broadcast_const m ls : ls <> [] -> Forall (eq m) ls -> broadcast ls = Ok m.
Proof.
  intros Hne H. induction H as [|n ls <- H IH]; [congruence|].
  destruct ls as [|k ls].
  - cbn. destruct (Nat.eqb_spec m 1) as [->|]; reflexivity.
  - change (broadcast (m :: k :: ls)) with (let! m0 := broadcast (k :: ls) in
      if m =? m0 then Ok m else if m =? 1 then Ok m0 else if m0 =? 1 then Ok m else Err IndexError).
    rewrite IH by discriminate. cbn [bind]. now rewrite Nat.eqb_refl.
Qed.
Lemma presolve_adv A ks : forall s, Forall (eq (length A)) (adv_lens (presolve A s ks)).
Proof. unfold adv_lens. induction ks as [|[] ks IH]; intros s; cbn; auto. Qed.
Lemma adv_lens_nonempty rs : has_adv rs = true -> adv_lens rs <> [].
Proof. unfold has_adv, adv_lens. induction rs as [|[] rs IH]; cbn; auto; discriminate. Qed.

Definition kout (m : nat) (s : list nat) (ks : list kind) : list nat :=
  if kadv ks then insert_at (kpos ks) m (klens s ks) else klens s ks.

Lemma probe_shape l A idx s :
  (forall n, 1 <= n -> mapM (norm n) l = Ok A) ->
  length s = nnew (map kind_of idx) -> Forall (fun n => 1 <= n) s ->
  np_shape s (map (probe_gen l) idx) = Ok (kout (length A) s (map kind_of idx)).
Proof.
  intros Hl Hs Hp. unfold np_shape. rewrite (probe_resolve l A) by assumption. cbn [bind].
  unfold out_shape, kout.
  rewrite has_adv_kind, adv_pos_kind, presolve_kind, presolve_kept.
  destruct (kadv _) eqn:E; [|reflexivity].
  rewrite (broadcast_const (length A)); [reflexivity| |apply presolve_adv].
  apply adv_lens_nonempty. now rewrite has_adv_kind, presolve_kind.
Qed.

Lemma norm00 n : 1 <= n -> mapM (norm n) [0; 0]%Z = Ok [0; 0].
Proof. intros H. cbn. unfold norm. rewrite py_pos_nonneg by lia. reflexivity. Qed.

Lemma find_pos_insert k l p : p <= length l -> ~ In k l -> find_pos k (insert_at p k l) = Some p.
Proof.
  revert p. induction l as [|x l IH]; intros [|p] Hp Hn; cbn in Hp; try lia.
  - cbn. now rewrite Nat.eqb_refl.
  - cbn. now rewrite Nat.eqb_refl.
  - rewrite insert_cons. cbn. destruct (Nat.eqb_spec x k); [exfalso; apply Hn; now left|].
    rewrite IH; [reflexivity|lia|]. intros H; apply Hn; now right.
Qed.
Lemma find_pos_none k l : ~ In k l -> find_pos k l = None.
Proof.
  induction l as [|x l IH]; intros H; cbn; [reflexivity|].
  destruct (Nat.eqb_spec x k); [exfalso; apply H; now left|].
  rewrite IH; [reflexivity|]. intros Hi; apply H; now right.
Qed.

(* ---- fill ---- *)
Definition no_new (ks : list kind) : Prop := ~ In KN ks.

Lemma fill_length rs : forall rest j, no_new (map rkind rs) -> length (fill rs rest j) = length rs.
Proof.
  induction rs as [|r rs IH]; intros rest j H; [reflexivity|].
  assert (no_new (map rkind rs)) by (intros Hi; apply H; now right).
  destruct r; cbn; try (now rewrite IH). exfalso. apply H. now left.
Qed.

Lemma insert_0 {A} (x : A) l : insert_at 0 x l = x :: l.
Proof. reflexivity. Qed.
Lemma remove_0 {A} (x : A) l : remove_at 0 (x :: l) = l.
Proof. reflexivity. Qed.
Lemma remove_S {A} k (x : A) l : remove_at (S k) (x :: l) = x :: remove_at k l.
Proof. reflexivity. Qed.

Lemma nkept_cons k ks : nkept (k :: ks) = (if kkept k then 1 else 0) + nkept ks.
Proof. unfold nkept. cbn. destruct (kkept k); reflexivity. Qed.

Lemma hd_remove_S k (rest : list nat) : k < length rest -> hd 0 (remove_at (S k) rest) = hd 0 rest.
Proof. destruct rest; [cbn; lia|]. reflexivity. Qed.

Lemma fill_insert_slice ps rs : forall ax rest j, ax <= length rs -> no_new (map rkind rs) ->
  let r := nkept (firstn ax (map rkind rs)) in
  r < length rest ->
  fill (insert_at ax (RSl ps) rs) rest j
    = insert_at ax (nth (nth r rest 0) ps 0) (fill rs (remove_at r rest) j).
Proof.
  induction rs as [|x rs IH]; intros [|ax] rest j Hax Hn r Hr.
  - cbn in r. destruct rest; [cbn in Hr; lia|]. reflexivity.
  - cbn in Hax. lia.
  - cbn in r. destruct rest; [cbn in Hr; lia|]. reflexivity.
  - assert (no_new (map rkind rs)) as Hn' by (intros Hi; apply Hn; now right).
    cbn [map firstn] in r. rewrite insert_cons.
    assert (ax <= length rs) as Hax' by (cbn in Hax; lia).
    destruct x; cbn [rkind] in r; cbn [fill].
    + exfalso. apply Hn. now left.
    + subst r. rewrite nkept_cons in *. cbn [kkept plus] in *.
      destruct rest as [|c rest]; [cbn in Hr; lia|]. cbn [hd tl length nth] in *.
      rewrite remove_S. cbn [hd tl]. rewrite insert_cons. f_equal. apply IH; auto. lia.
    + subst r. rewrite nkept_cons in *. cbn [kkept plus] in *. rewrite insert_cons. f_equal. apply IH; auto.
    + subst r. rewrite nkept_cons in *. cbn [kkept plus] in *. rewrite insert_cons. f_equal. apply IH; auto.
Qed.

Lemma fill_insert_int p rs : forall ax rest j, ax <= length rs -> no_new (map rkind rs) ->
  fill (insert_at ax (RInt p) rs) rest j = insert_at ax p (fill rs rest j).
Proof.
  induction rs as [|x rs IH]; intros [|ax] rest j Hax Hn; try reflexivity.
  - assert (no_new (map rkind rs)) as Hn' by (intros Hi; apply Hn; now right).
    rewrite insert_cons. assert (ax <= length rs) as Hax' by (cbn in Hax; lia).
    destruct x; cbn [fill]; try (rewrite insert_cons; f_equal; apply IH; auto).
    exfalso. apply Hn. now left.
Qed.
Lemma fill_insert_adv ps rs : forall ax rest j, ax <= length rs -> no_new (map rkind rs) ->
  fill (insert_at ax (RAdv ps) rs) rest j = insert_at ax (bnth ps j) (fill rs rest j).
Proof.
  induction rs as [|x rs IH]; intros [|ax] rest j Hax Hn; try reflexivity.
  - assert (no_new (map rkind rs)) as Hn' by (intros Hi; apply Hn; now right).
    rewrite insert_cons. assert (ax <= length rs) as Hax' by (cbn in Hax; lia).
    destruct x; cbn [fill]; try (rewrite insert_cons; f_equal; apply IH; auto).
    exfalso. apply Hn. now left.
Qed.

(* ---- kinds after inserting the stacking axis ---- *)
Lemma kadv_insert_false k ks ax : k <> KA -> kadv (insert_at ax k ks) = kadv ks.
Proof.
  intros Hk. unfold kadv, insert_at. rewrite existsb_app. cbn [existsb].
  replace (match k with KA => true | _ => false end) with false by (destruct k; congruence).
  cbn [orb]. rewrite <- existsb_app, firstn_skipn. reflexivity.
Qed.
Lemma kadv_insert_true ks ax : kadv (insert_at ax KA ks) = true.
Proof. unfold kadv, insert_at. rewrite existsb_app. cbn. apply orb_true_r. Qed.
Lemma kadv_In ks : kadv ks = true -> In true (map kflag ks).
Proof. unfold kadv. induction ks as [|[] ks IH]; cbn; auto; discriminate. Qed.
Lemma nkept_nfalse ks : nkept ks = nfalse (map kflag ks).
Proof. unfold nkept, nfalse. induction ks as [|[] ks IH]; cbn; auto. Qed.

Lemma kpos_insert ks ax : ax <= length ks -> kadv ks = true ->
  let r := nkept (firstn ax ks) in
  let p := kpos (insert_at ax KS ks) in
  let p' := kpos ks in
  (r < p -> r <= p') /\ (p <= r -> p' <= r).
Proof.
  intros Hax Ha. cbn zeta. rewrite nkept_nfalse, <- firstn_map.
  pose proof (fpos_insert (map kflag ks) ax) as H. cbn zeta in H.
  rewrite map_length in H. specialize (H Hax (kadv_In _ Ha)).
  unfold kpos. rewrite map_insert_at. exact H.
Qed.

Lemma nkept_app ks ks' : nkept (ks ++ ks') = nkept ks + nkept ks'.
Proof. unfold nkept. now rewrite filter_app, app_length. Qed.
Lemma nkept_insert k ks ax : nkept (insert_at ax k ks) = (if kkept k then 1 else 0) + nkept ks.
Proof.
  unfold insert_at. rewrite nkept_app, nkept_cons.
  rewrite <- (firstn_skipn ax ks) at 3. rewrite nkept_app. lia.
Qed.
Lemma nkept_firstn_le ax ks : nkept (firstn ax ks) <= nkept ks.
Proof. rewrite <- (firstn_skipn ax ks) at 2. rewrite nkept_app. lia. Qed.

Lemma kept_lens_app rs rs' : kept_lens (rs ++ rs') = kept_lens rs ++ kept_lens rs'.
Proof. unfold kept_lens. apply flat_map_app. Qed.
Lemma kept_lens_insert_slice ps rs ax :
  kept_lens (insert_at ax (RSl ps) rs)
    = insert_at (nkept (firstn ax (map rkind rs))) (length ps) (kept_lens rs).
Proof.
  unfold insert_at at 1. rewrite kept_lens_app.
  rewrite firstn_map, <- kept_length.
  assert (kept_lens rs = kept_lens (firstn ax rs) ++ kept_lens (skipn ax rs)) as ->.
  { now rewrite <- kept_lens_app, firstn_skipn. }
  change (kept_lens (RSl ps :: skipn ax rs)) with (length ps :: kept_lens (skipn ax rs)).
  set (a := kept_lens (firstn ax rs)). set (b := kept_lens (skipn ax rs)).
  unfold insert_at. rewrite firstn_app, skipn_app, firstn_all, skipn_all, Nat.sub_diag.
  cbn. rewrite app_nil_r. reflexivity.
Qed.
Lemma kept_lens_insert_other r rs ax : kkept (rkind r) = false ->
  kept_lens (insert_at ax r rs) = kept_lens rs.
Proof.
  intros H. unfold insert_at. rewrite kept_lens_app.
  rewrite <- (firstn_skipn ax rs) at 3. rewrite kept_lens_app. f_equal.
  destruct r; try discriminate; reflexivity.
Qed.
Lemma adv_lens_app rs rs' : adv_lens (rs ++ rs') = adv_lens rs ++ adv_lens rs'.
Proof. unfold adv_lens. apply flat_map_app. Qed.
Lemma adv_lens_insert_other r rs ax : rkind r <> KA ->
  adv_lens (insert_at ax r rs) = adv_lens rs.
Proof.
  intros H. unfold insert_at. rewrite adv_lens_app.
  rewrite <- (firstn_skipn ax rs) at 3. rewrite adv_lens_app. f_equal.
  destruct r; try reflexivity. now destruct H.
Qed.

(* ---- selecting arguments ---- *)
Lemma pick_Forall2 {Arg} (args : list Arg) ps : Forall (fun p => p < length args) ps ->
  Forall2 (fun p a => nth_error args p = Some a) ps (pick args ps).
Proof.
  induction 1 as [|p ps Hp H IH]; cbn; [constructor|].
  destruct (nth_error args p) as [a|] eqn:E; [cbn; now constructor|].
  apply nth_error_None in E. lia.
Qed.

Lemma shape_eqb_refl s : shape_eqb s s = true.
Proof. induction s as [|n s IH]; cbn; [reflexivity|]. now rewrite Nat.eqb_refl. Qed.
Lemma shape_eqb_eq s t : shape_eqb s t = true -> s = t.
Proof.
  revert t. induction s as [|n s IH]; intros [|m t]; cbn; try discriminate; [reflexivity|].
  rewrite andb_true_iff, Nat.eqb_eq. intros [-> H]. f_equal. auto.
Qed.

Lemma np_stack_ok {V} (l : list (arr V)) ax s : l <> [] -> Forall (fun d => shp d = s) l ->
  exists st, np_stack l ax = Ok st /\ shp st = insert_at ax (length l) s /\
    forall o d, nth_error l (nth ax o 0) = Some d -> elt st o = elt d (remove_at ax o).
Proof.
  intros Hne H. destruct l as [|d0 l]; [congruence|].
  assert (shp d0 = s) as H0 by now inversion H.
  unfold np_stack.
  assert (forallb (fun b => shape_eqb (shp b) (shp d0)) (d0 :: l) = true) as ->.
  { apply forallb_forall. intros d Hd. rewrite Forall_forall in H. rewrite (H d Hd), H0. apply shape_eqb_refl. }
  eexists. split; [reflexivity|]. split; [cbn; now rewrite H0|].
  intros o d Hd. cbn [elt]. f_equal. now apply nth_error_nth.
Qed.

Section Core.
Context {Arg V : Type} (gen : Arg -> arr V) (dflt : V) (args : list Arg) (S' : list nat) (ax : nat).
Hypothesis Hax : ax <= length S'.

Definition full_arr : arr V :=
  {| shp := insert_at ax (length args) S';
     elt := fun o => match nth_error args (nth ax o 0) with
                     | Some a => elt (gen a) (remove_at ax o)
                     | None => dflt
                     end |}.

Definition part (rs : list rent) (so : list nat) (a : Arg) : arr V :=
  {| shp := so; elt := out_elt (elt (gen a)) rs |}.

Lemma full_at p a o : length o = length S' -> nth_error args p = Some a ->
  elt full_arr (insert_at ax p o) = elt (gen a) o.
Proof.
  intros Ho Ha. cbn. rewrite nth_insert_same by lia. rewrite Ha. now rewrite remove_insert_at by lia.
Qed.

Lemma Forall2_nth_error {A B} (R : A -> B -> Prop) l l' k b : Forall2 R l l' -> nth_error l' k = Some b ->
  exists a, nth_error l k = Some a /\ R a b.
Proof.
  intros H. revert k. induction H as [|x y l l' Hxy H IH]; intros [|k] E; try discriminate.
  - injection E as <-. exists x. auto.
  - apply IH. exact E.
Qed.

Context (rs' : list rent).
Hypothesis Hnn : no_new (map rkind rs').
Hypothesis Hlen : length rs' = length S'.

Let ks' := map rkind rs'.

Section Slice.
Context (ps : list nat).
Hypothesis Hps : Forall (fun p => p < length args) ps.
Hypothesis Hne : ps <> [].
Let rs := insert_at ax (RSl ps) rs'.
Let r := nkept (firstn ax ks').
Let p := kpos (insert_at ax KS ks').
Let axo := if kadv ks' then if r <? p then r else S r else r.
Let q := if kpos ks' <? axo then kpos ks' else S (kpos ks').

Lemma has_adv_rs_slice : has_adv rs = kadv ks'.
Proof. rewrite has_adv_kind. unfold rs. rewrite map_insert_at. now apply kadv_insert_false. Qed.

Lemma core_slice so so' :
  out_shape rs = Ok so -> out_shape rs' = Ok so' ->
  exists st, np_stack (map (part rs' so') (pick args ps)) axo = Ok st /\
    arr_eq (if kadv ks' then mv q p st else st) {| shp := so; elt := out_elt (elt full_arr) rs |} /\
    (kadv ks' = true -> q < length (shp st) /\ p < length (shp st)).
Proof.
  intros Hso Hso'.
  pose proof (pick_Forall2 args ps Hps) as Hpick.
  assert (length (pick args ps) = length ps) as Hpl by (symmetry; eapply Forall2_len; eauto).
  destruct (np_stack_ok (map (part rs' so') (pick args ps)) axo so') as (st & Hst & Hsh & Hel).
  { intros E. apply map_eq_nil in E. rewrite E in Hpl. destruct ps; [congruence|discriminate]. }
  { rewrite Forall_map, Forall_forall. reflexivity. }
  exists st. split; [exact Hst|].
  rewrite map_length, Hpl in Hsh.
  assert (r <= nkept ks') as Hr by apply nkept_firstn_le.
  assert (length (kept_lens rs') = nkept ks') as Hkl by apply kept_length.
  assert (has_adv rs = kadv ks') as Hadv by apply has_adv_rs_slice.
  assert (adv_pos rs = p) as Hpos.
  { rewrite adv_pos_kind. unfold rs. now rewrite map_insert_at. }
  assert (kept_lens rs = insert_at r (length ps) (kept_lens rs')) as Hk by apply kept_lens_insert_slice.
  unfold out_shape in Hso, Hso'. rewrite Hadv, Hpos, Hk in Hso. rewrite has_adv_kind, adv_pos_kind in Hso'.
  fold ks' in Hso'. unfold rs in Hso. rewrite adv_lens_insert_other in Hso by discriminate.
  destruct (kadv ks') eqn:Ea.
  - (* lists present *)
    destruct (broadcast (adv_lens rs')) as [L|e] eqn:EL; [|discriminate]. cbn in Hso, Hso'.
    injection Hso as <-. injection Hso' as <-.
    assert (length ks' = length S') as Hks by (unfold ks'; now rewrite map_length).
    pose proof (kpos_insert ks' ax ltac:(lia) Ea) as Hpp. cbn zeta in Hpp. fold r p in Hpp.
    destruct Hpp as [Hp1 Hp2].
    assert (kpos ks' <= nkept ks') as Hp' by now apply kpos_le.
    assert (p <= S (nkept ks')) as Hp.
    { unfold p. pose proof (kpos_le (insert_at ax KS ks')) as H. rewrite nkept_insert in H.
      rewrite kadv_insert_false in H by discriminate. apply H. exact Ea. }
    assert (axo = if r <? p then r else S r) as Haxo by reflexivity.
    assert (axo <= S (nkept ks')) as Haxo' by (rewrite Haxo; destruct (r <? p); lia).
    assert (length (shp st) = S (S (nkept ks'))) as Hlst.
    { rewrite Hsh, !length_insert_at. lia. }
    assert (q <= S (nkept ks')) as Hq by (unfold q; destruct (Nat.ltb_spec (kpos ks') axo); lia).
    assert (kpos ks' < axo <-> p <= r) as Hcase.
    { rewrite Haxo. destruct (Nat.ltb_spec r p) as [H|H].
      - specialize (Hp1 H). lia.
      - specialize (Hp2 H). lia. }
    split; [|intros _; lia].
    assert ((axo = r /\ q = S (kpos ks') /\ r <= kpos ks') \/ (axo = S r /\ q = kpos ks' /\ kpos ks' <= r)) as Hc.
    { unfold q. destruct (Nat.ltb_spec (kpos ks') axo) as [H|H]; rewrite Haxo in *;
        destruct (Nat.ltb_spec r p) as [H'|H']; try lia. }
    assert (r = nkept (firstn ax ks')) as Hrdef by reflexivity.
    clearbody q axo p r. clear Haxo Hcase Hp1 Hp2.
    assert (insert_at p (nth q (shp st) 0) (remove_at q (shp st))
            = insert_at p L (insert_at r (length ps) (kept_lens rs'))) as Hshape.
    { (* shapes *)
      assert (remove_at q (shp st) = insert_at r (length ps) (kept_lens rs')) as Hrem.
      { apply (list_ext_nth 0).
        { rewrite length_remove_at by lia. rewrite length_insert_at. lia. }
        intros k Hkk. rewrite length_remove_at in Hkk by lia. rewrite Hsh, nth_remove_at.
        rewrite !nth_insert_at; rewrite ?length_insert_at; try lia.
        destruct Hc as [(-> & -> & Hc)|(-> & -> & Hc)];
        repeat match goal with
        | |- context [?a <? ?b] => destruct (Nat.ltb_spec a b); try lia
        | |- context [?a =? ?b] => destruct (Nat.eqb_spec a b); try lia
        end; try lia; try reflexivity; f_equal; lia. }
      rewrite Hrem. f_equal.
      rewrite Hsh. rewrite nth_insert_at by (rewrite length_insert_at; lia).
      destruct Hc as [(-> & -> & Hc)|(-> & -> & Hc)].
      - destruct (Nat.ltb_spec (S (kpos ks')) r); [lia|].
        destruct (Nat.eqb_spec (S (kpos ks')) r); [lia|].
        replace (S (kpos ks') - 1) with (kpos ks') by lia. apply nth_insert_same. lia.
      - destruct (Nat.ltb_spec (kpos ks') (S r)); [|lia]. apply nth_insert_same. lia. }
    split; [exact Hshape|].
    cbn [mv elt shp]. intros o Ho. rewrite Hshape in Ho.
    assert (length o = S (S (nkept ks'))) as Hol.
    { rewrite (inside_length _ _ Ho), !length_insert_at. lia. }
    set (j := nth p o 0). set (rest := remove_at p o).
    assert (length rest = S (nkept ks')) as Hrl by (unfold rest; rewrite length_remove_at; lia).
    assert (nth r rest 0 < length ps) as Hrr.
    { unfold rest.
      assert (inside (insert_at r (length ps) (kept_lens rs')) (remove_at p o)) as Hin.
      { rewrite <- (remove_insert_at p L (insert_at r (length ps) (kept_lens rs'))) by (rewrite length_insert_at; lia).
        apply inside_remove; [|assumption]. rewrite !length_insert_at. lia. }
      apply (inside_nth_lt _ _ r) in Hin; [|rewrite length_insert_at; lia].
      rewrite nth_insert_same in Hin by lia. exact Hin. }
    unfold out_elt. rewrite Hadv, Hpos. fold j rest.
    unfold rs. rewrite fill_insert_slice; [|lia|exact Hnn|fold ks'; rewrite <- Hrdef; lia].
    fold ks'. rewrite <- Hrdef.
    assert (nth axo (insert_at q j rest) 0 = nth r rest 0) as Hnax.
    { rewrite nth_insert_at by lia. destruct Hc as [(-> & -> & Hc)|(-> & -> & Hc)];
      repeat match goal with
      | |- context [?a <? ?b] => destruct (Nat.ltb_spec a b)
      | |- context [?a =? ?b] => destruct (Nat.eqb_spec a b)
      end; try lia; try reflexivity; f_equal; lia. }
    destruct (nth_error (pick args ps) (nth r rest 0)) as [a|] eqn:Epick.
    2:{ apply nth_error_None in Epick. lia. }
    rewrite (Hel _ (part rs' (insert_at (kpos ks') L (kept_lens rs')) a)).
    2:{ rewrite Hnax. rewrite nth_error_map, Epick. reflexivity. }
    destruct (Forall2_nth_error _ _ _ _ _ Hpick Epick) as (pp & Hpp1 & Hpp2).
    rewrite (nth_error_nth _ _ 0 Hpp1).
    rewrite (full_at pp a); [|rewrite fill_length by exact Hnn; exact Hlen|exact Hpp2].
    cbn [part elt]. unfold out_elt. rewrite has_adv_kind, adv_pos_kind. fold ks'. rewrite Ea.
    assert (remove_at axo (insert_at q j rest) = insert_at (kpos ks') j (remove_at r rest)) as ->.
    { apply (list_ext_nth 0).
      { rewrite length_remove_at, !length_insert_at, length_remove_at by (rewrite ?length_insert_at; lia). lia. }
      intros k Hkk. rewrite length_remove_at, length_insert_at in Hkk by (rewrite length_insert_at; lia).
      rewrite nth_remove_at. rewrite !nth_insert_at by (rewrite ?length_remove_at; lia).
      rewrite !nth_remove_at. destruct Hc as [(-> & -> & Hc)|(-> & -> & Hc)];
      repeat match goal with
      | |- context [?a <? ?b] => destruct (Nat.ltb_spec a b)
      | |- context [?a =? ?b] => destruct (Nat.eqb_spec a b)
      end; try lia; try reflexivity; f_equal; lia. }
    rewrite remove_insert_at, nth_insert_same by (rewrite length_remove_at; lia). reflexivity.
  - (* no lists *)
    injection Hso as <-. injection Hso' as <-.
    assert (axo = r) as Haxo by reflexivity.
    split; [|discriminate].
    split; [rewrite Hsh, Haxo; reflexivity|].
    cbn [elt shp]. intros o Ho. rewrite Hsh, Haxo in Ho.
    assert (length o = S (nkept ks')) as Hol.
    { rewrite (inside_length _ _ Ho), !length_insert_at. lia. }
    assert (nth r o 0 < length ps) as Hrr.
    { apply (inside_nth_lt _ _ r) in Ho; [|rewrite length_insert_at; lia].
      rewrite nth_insert_same in Ho by lia. exact Ho. }
    destruct (nth_error (pick args ps) (nth r o 0)) as [a|] eqn:Epick.
    2:{ apply nth_error_None in Epick. lia. }
    rewrite (Hel _ (part rs' (kept_lens rs') a)).
    2:{ rewrite Haxo. rewrite nth_error_map, Epick. reflexivity. }
    destruct (Forall2_nth_error _ _ _ _ _ Hpick Epick) as (pp & Hpp1 & Hpp2).
    unfold out_elt at 1. rewrite Hadv.
    unfold rs. rewrite fill_insert_slice; [|lia|exact Hnn|fold ks'; fold r; lia].
    fold ks'. fold r. rewrite (nth_error_nth _ _ 0 Hpp1).
    rewrite (full_at pp a); [|rewrite fill_length by exact Hnn; exact Hlen|exact Hpp2].
    cbn [part elt]. unfold out_elt. rewrite has_adv_kind. fold ks'. rewrite Ea, Haxo. reflexivity.
Qed.
End Slice.

Section Int.
Context (p0 : nat) (a : Arg).
Hypothesis Ha : nth_error args p0 = Some a.
Let rs := insert_at ax (RInt p0) rs'.
Let p := kpos (insert_at ax KI ks').
Let q := kpos ks'.

Lemma core_int so so' :
  out_shape rs = Ok so -> out_shape rs' = Ok so' ->
  arr_eq (if kadv ks' then mv q p (part rs' so' a) else part rs' so' a)
         {| shp := so; elt := out_elt (elt full_arr) rs |} /\
  (kadv ks' = true -> q < length so' /\ p < length so').
Proof.
  intros Hso Hso'.
  assert (length (kept_lens rs') = nkept ks') as Hkl by apply kept_length.
  assert (has_adv rs = kadv ks') as Hadv.
  { rewrite has_adv_kind. unfold rs. rewrite map_insert_at. now apply kadv_insert_false. }
  assert (adv_pos rs = p) as Hpos.
  { rewrite adv_pos_kind. unfold rs. now rewrite map_insert_at. }
  assert (kept_lens rs = kept_lens rs') as Hk by now apply kept_lens_insert_other.
  unfold out_shape in Hso, Hso'. rewrite Hadv, Hpos, Hk in Hso. rewrite has_adv_kind, adv_pos_kind in Hso'.
  fold ks' in Hso'. fold q in Hso'. unfold rs in Hso. rewrite adv_lens_insert_other in Hso by discriminate.
  destruct (kadv ks') eqn:Ea.
  - destruct (broadcast (adv_lens rs')) as [L|e] eqn:EL; [|discriminate]. cbn in Hso, Hso'.
    injection Hso as <-. injection Hso' as <-.
    assert (q <= nkept ks') as Hq by now apply kpos_le.
    assert (p <= nkept ks') as Hp.
    { unfold p. pose proof (kpos_le (insert_at ax KI ks')) as H. rewrite nkept_insert in H.
      rewrite kadv_insert_false in H by discriminate. apply H. exact Ea. }
    split; [|intros _; rewrite length_insert_at; lia].
    assert (insert_at p (nth q (insert_at q L (kept_lens rs')) 0) (remove_at q (insert_at q L (kept_lens rs')))
            = insert_at p L (kept_lens rs')) as Hshape.
    { rewrite nth_insert_same, remove_insert_at by lia. reflexivity. }
    split; [exact Hshape|].
    cbn [mv shp elt part]. intros o Ho. rewrite Hshape in Ho.
    assert (length o = S (nkept ks')) as Hol by (rewrite (inside_length _ _ Ho), length_insert_at; lia).
    unfold out_elt. rewrite Hadv, Hpos. rewrite has_adv_kind, adv_pos_kind. fold ks'. rewrite Ea. fold q.
    unfold rs. rewrite fill_insert_int; [|lia|exact Hnn].
    rewrite (full_at p0 a); [|rewrite fill_length by exact Hnn; exact Hlen|exact Ha].
    rewrite remove_insert_at, nth_insert_same by (rewrite length_remove_at; lia). reflexivity.
  - injection Hso as <-. injection Hso' as <-. split; [|discriminate]. split; [reflexivity|].
    cbn [shp elt part]. intros o Ho.
    unfold out_elt. rewrite Hadv. rewrite has_adv_kind. fold ks'. rewrite Ea.
    unfold rs. rewrite fill_insert_int; [|lia|exact Hnn].
    rewrite (full_at p0 a); [|rewrite fill_length by exact Hnn; exact Hlen|exact Ha]. reflexivity.
Qed.
End Int.

Section Adv.
Context (ps : list nat).
Hypothesis Hps : Forall (fun p => p < length args) ps.
Hypothesis Hne : ps <> [].
Hypothesis Huni : Forall (eq (length ps)) (adv_lens rs').
Let rs := insert_at ax (RAdv ps) rs'.
Let p := kpos (insert_at ax KA ks').
Definition dec1 (k : nat) (r : rent) : rent := match r with RAdv qs => RInt (nth k qs 0) | _ => r end.

Lemma dec_kept k l : kept_lens (map (dec1 k) l) = kept_lens l.
Proof. unfold kept_lens. induction l as [|[] l IH]; cbn; rewrite ?IH; reflexivity. Qed.
Lemma dec_adv k l : has_adv (map (dec1 k) l) = false.
Proof. unfold has_adv. induction l as [|[] l IH]; cbn; auto. Qed.
Lemma dec_fill k L l : k < L -> Forall (eq L) (adv_lens l) -> forall rest,
  fill (map (dec1 k) l) rest 0 = fill l rest k.
Proof.
  intros Hk. unfold adv_lens. induction l as [|r l IH]; intros H rest; [reflexivity|].
  cbn in H. apply Forall_app in H. destruct H as [H1 H2].
  destruct r; cbn; rewrite ?IH by assumption; try reflexivity. f_equal.
  inversion H1 as [|? ? HL _]. subst L. unfold bnth.
  destruct (Nat.eqb_spec (length ps0) 1) as [E|]; [|reflexivity]. f_equal. lia.
Qed.

Lemma core_adv so :
  out_shape rs = Ok so ->
  exists st,
    np_stack (map (fun ka => part (map (dec1 (fst ka)) rs') (kept_lens rs') (snd ka))
                  (combine (seq 0 (length ps)) (pick args ps))) p = Ok st /\
    arr_eq st {| shp := so; elt := out_elt (elt full_arr) rs |}.
Proof.
  intros Hso.
  pose proof (pick_Forall2 args ps Hps) as Hpick.
  assert (length (pick args ps) = length ps) as Hpl by (symmetry; eapply Forall2_len; eauto).
  set (data := map _ _).
  assert (length data = length ps) as Hdl.
  { unfold data. rewrite map_length, combine_length, seq_length. lia. }
  destruct (np_stack_ok data p (kept_lens rs')) as (st & Hst & Hsh & Hel).
  { intros E. rewrite E in Hdl. destruct ps; [congruence|discriminate]. }
  { unfold data. rewrite Forall_map, Forall_forall. reflexivity. }
  exists st. split; [exact Hst|]. rewrite Hdl in Hsh.
  assert (length (kept_lens rs') = nkept ks') as Hkl by apply kept_length.
  assert (has_adv rs = true) as Hadv.
  { rewrite has_adv_kind. unfold rs. rewrite map_insert_at. apply kadv_insert_true. }
  assert (adv_pos rs = p) as Hpos.
  { rewrite adv_pos_kind. unfold rs. now rewrite map_insert_at. }
  assert (kept_lens rs = kept_lens rs') as Hk by now apply kept_lens_insert_other.
  assert (p <= nkept ks') as Hp.
  { unfold p. pose proof (kpos_le (insert_at ax KA ks')) as H. rewrite nkept_insert in H.
    apply H. apply kadv_insert_true. }
  assert (Forall (eq (length ps)) (adv_lens rs)) as Hall.
  { unfold rs, insert_at. rewrite adv_lens_app.
    rewrite <- (firstn_skipn ax rs'), adv_lens_app in Huni. apply Forall_app in Huni. destruct Huni as [H1 H2].
    apply Forall_app. split; [assumption|]. cbn. constructor; [reflexivity|assumption]. }
  unfold out_shape in Hso. rewrite Hadv, Hpos, Hk in Hso.
  rewrite (broadcast_const (length ps)) in Hso; [|now apply adv_lens_nonempty|assumption].
  cbn in Hso. injection Hso as <-.
  split; [exact Hsh|]. cbn [elt]. intros o Ho. rewrite Hsh in Ho.
  assert (length o = S (nkept ks')) as Hol by (rewrite (inside_length _ _ Ho), length_insert_at; lia).
  assert (nth p o 0 < length ps) as Hj.
  { apply (inside_nth_lt _ _ p) in Ho; [|rewrite length_insert_at; lia].
    rewrite nth_insert_same in Ho by lia. exact Ho. }
  destruct (nth_error (pick args ps) (nth p o 0)) as [a|] eqn:Epick.
  2:{ apply nth_error_None in Epick. lia. }
  destruct (Forall2_nth_error _ _ _ _ _ Hpick Epick) as (pp & Hpp1 & Hpp2).
  rewrite (Hel _ (part (map (dec1 (nth p o 0)) rs') (kept_lens rs') a)).
  2:{ unfold data. rewrite nth_error_map.
      assert (nth_error (combine (seq 0 (length ps)) (pick args ps)) (nth p o 0) = Some (nth p o 0, a)) as ->; [|reflexivity].
      assert (forall (l : list Arg) s k b, nth_error l k = Some b ->
                nth_error (combine (seq s (length l)) l) k = Some (s + k, b)) as Hcomb.
      { induction l as [|y l IH]; intros s [|k] b E; cbn in *; try discriminate.
        - injection E as <-. now rewrite Nat.add_0_r.
        - rewrite (IH (S s) k b E). f_equal. f_equal. lia. }
      rewrite <- Hpl. apply (Hcomb _ 0). exact Epick. }
  unfold out_elt. rewrite Hadv, Hpos.
  unfold rs. rewrite fill_insert_adv; [|lia|exact Hnn].
  assert (bnth ps (nth p o 0) = pp) as ->.
  { unfold bnth. destruct (Nat.eqb_spec (length ps) 1).
    - replace 0 with (nth p o 0) at 1 by lia. now apply nth_error_nth.
    - now apply nth_error_nth. }
  rewrite (full_at pp a); [|rewrite fill_length by exact Hnn; exact Hlen|exact Hpp2].
  cbn [part elt]. unfold out_elt. rewrite dec_adv.
  rewrite (dec_fill _ (length ps)) by assumption. reflexivity.
Qed.
End Adv.
End Core.

(* ---- new axes ---- *)
Definition rnew (r : rent) : bool := match r with RNew => true | _ => false end.
Definition nonew (rs : list rent) : list rent := filter (fun r => negb (rnew r)) rs.
(* among the kept dimensions: which are not new *)
Definition kmask (ks : list kind) : list bool :=
  flat_map (fun k => match k with KN => [false] | KS => [true] | _ => [] end) ks.
Definition ntrue (m : list bool) : nat := length (filter (fun b => b) m).

Fixpoint expand1 (m : list bool) (s : list nat) : list nat :=
  match m with
  | [] => []
  | false :: m' => 1 :: expand1 m' s
  | true :: m' => hd 0 s :: expand1 m' (tl s)
  end.

Lemma expand1_length m : forall s, length (expand1 m s) = length m.
Proof. induction m as [|[] m IH]; intros s; cbn; auto. Qed.

Lemma kmask_length ks : length (kmask ks) = nkept ks.
Proof. unfold kmask, nkept. induction ks as [|[] ks IH]; cbn; auto. Qed.

Lemma ntrue_cons b m : ntrue (b :: m) = (if b then 1 else 0) + ntrue m.
Proof. unfold ntrue. cbn. destruct b; reflexivity. Qed.

Lemma expand1_kept rs : expand1 (kmask (map rkind rs)) (kept_lens (nonew rs)) = kept_lens rs.
Proof. unfold kept_lens, kmask, nonew. induction rs as [|[] rs IH]; cbn; rewrite ?IH; reflexivity. Qed.

Lemma kept_nonew_length rs : length (kept_lens (nonew rs)) = ntrue (kmask (map rkind rs)).
Proof. unfold kept_lens, kmask, nonew. induction rs as [|[] rs IH]; cbn; rewrite ?IH; reflexivity. Qed.

Lemma fill_nonew rs : forall rest j, length rest = nkept (map rkind rs) ->
  fill rs rest j = fill (nonew rs) (compress rest (kmask (map rkind rs))) j.
Proof.
  induction rs as [|r rs IH]; intros rest j H; [reflexivity|].
  cbn [map] in H. rewrite nkept_cons in H.
  destruct r; cbn [rkind kkept] in H; cbn [plus] in H.
  - destruct rest as [|c rest]; [discriminate|]. injection H as H. cbn. now apply IH.
  - destruct rest as [|c rest]; [discriminate|]. injection H as H. cbn. f_equal. now apply IH.
  - cbn. f_equal. now apply IH.
  - cbn. f_equal. now apply IH.
Qed.

Lemma expand1_insert p L m : forall s, p <= length m -> length s = ntrue m ->
  expand1 (insert_at p true m) (insert_at (ntrue (firstn p m)) L s) = insert_at p L (expand1 m s).
Proof.
  revert p. induction m as [|b m IH]; intros [|p] s Hp Hs; cbn in Hp; try lia; try reflexivity.
  rewrite insert_cons. rewrite ntrue_cons in Hs. cbn [firstn]. rewrite ntrue_cons.
  destruct b; cbn [plus] in *.
  - destruct s as [|n s]; [discriminate|]. injection Hs as Hs. rewrite insert_cons.
    cbn [expand1 hd tl]. rewrite insert_cons. f_equal. apply IH; [lia|assumption].
  - cbn [expand1]. rewrite insert_cons. f_equal. apply IH; [lia|assumption].
Qed.

Lemma compress_insert {A} p (j : A) m : forall o, p <= length m -> length o = length m ->
  compress (insert_at p j o) (insert_at p true m) = insert_at (ntrue (firstn p m)) j (compress o m).
Proof.
  revert p. induction m as [|b m IH]; intros [|p] [|x o] Hp Ho; cbn in Hp, Ho; try lia; try reflexivity.
  rewrite !insert_cons. cbn [firstn]. rewrite ntrue_cons. destruct b; cbn [plus compress].
  - rewrite insert_cons. f_equal. apply IH; lia.
  - apply IH; lia.
Qed.

Lemma compress_length {A} (o : list A) : forall m, length o = length m -> length (compress o m) = ntrue m.
Proof.
  induction o as [|x o IH]; intros [|b m] H; try discriminate; [reflexivity|].
  injection H as H. rewrite ntrue_cons. destruct b; cbn; now rewrite IH.
Qed.

Lemma ntrue_insert p m : ntrue (insert_at p true m) = S (ntrue m).
Proof.
  unfold ntrue, insert_at. rewrite filter_app, app_length. cbn.
  rewrite <- (firstn_skipn p m) at 3. rewrite filter_app, app_length. lia.
Qed.
Lemma ntrue_firstn_le p m : ntrue (firstn p m) <= ntrue m.
Proof.
  rewrite <- (firstn_skipn p m) at 2. unfold ntrue. rewrite filter_app, app_length. lia.
Qed.

(* applying (slice(None) or np.newaxis) per dimension *)
Definition nxs (m : list bool) (s : list nat) : list rent :=
  (fix go m s := match m with
   | [] => []
   | false :: m' => RNew :: go m' s
   | true :: m' => RSl (seq 0 (hd 0 s)) :: go m' (tl s)
   end) m s.
Lemma nx_resolve m : forall s, length s = ntrue m ->
  resolve_all s (map (fun b : bool => if b then full else New) m) = Ok (nxs m s).
Proof.
  induction m as [|b m IH]; intros s H; [destruct s; [reflexivity|discriminate]|].
  rewrite ntrue_cons in H. destruct b; cbn [plus] in H.
  - destruct s as [|n s]; [discriminate|]. injection H as H.
    cbn [map]. apply resolve_all_cons_ok; [discriminate| |now apply IH].
    unfold full. cbn [resolve]. rewrite slice_all_positions. reflexivity.
  - cbn [map resolve_all]. rewrite (IH s H). reflexivity.
Qed.
Lemma nx_adv m : forall s, has_adv (nxs m s) = false.
Proof. unfold has_adv. induction m as [|[] m IH]; intros s; cbn; auto. Qed.
Lemma nx_kept m : forall s, kept_lens (nxs m s) = expand1 m s.
Proof.
  unfold kept_lens. induction m as [|[] m IH]; intros s; cbn; rewrite ?seq_length; f_equal; auto.
Qed.
Lemma nx_fill m : forall s o, length s = ntrue m -> inside (expand1 m s) o -> fill (nxs m s) o 0 = compress o m.
Proof.
  unfold inside. induction m as [|b m IH]; intros s o Hs H; [inversion H; reflexivity|].
  rewrite ntrue_cons in Hs. destruct b; cbn [plus expand1 hd tl] in *.
  - inversion H as [|n c ? o' Hc H' E1 E2]. subst. cbn. rewrite seq_nth by assumption. cbn. f_equal.
    destruct s as [|n s]; [discriminate|]. apply IH; [now injection Hs|assumption].
  - inversion H as [|n c ? o' Hc H' E1 E2]. subst. cbn. apply IH; assumption.
Qed.
Lemma nx_get {V} (c : arr V) m : length (shp c) = ntrue m ->
  exists r, np_get c (map (fun b : bool => if b then full else New) m) = Ok r /\
    shp r = expand1 m (shp c) /\
    forall o, inside (shp r) o -> elt r o = elt c (compress o m).
Proof.
  intros H. unfold np_get. rewrite nx_resolve by assumption. cbn [bind].
  unfold out_shape. rewrite nx_adv. cbn [bind]. eexists. split; [reflexivity|]. cbn [shp elt].
  rewrite nx_kept. split; [reflexivity|]. intros o Ho. unfold out_elt. rewrite nx_adv.
  now rewrite nx_fill.
Qed.

Lemma inside_compress m : forall s o, length s = ntrue m -> inside (expand1 m s) o -> inside s (compress o m).
Proof.
  unfold inside. induction m as [|b m IH]; intros s o Hs H.
  - destruct s; [|discriminate]. destruct o; constructor.
  - rewrite ntrue_cons in Hs. destruct b; cbn [plus expand1] in *;
    inversion H as [|n c ? o' Hc H' E1 E2]; subst; cbn [compress].
    + destruct s as [|n s]; [discriminate|]. cbn in *. constructor; [assumption|]. apply IH; [lia|assumption].
    + now apply IH.
Qed.

Lemma mv_axes_ok n q p : q < n -> p < n -> is_axes (insert_at p q (remove_at q (seq 0 n))) n = true.
Proof.
  intros Hq Hp. unfold is_axes. rewrite length_insert_at, length_remove_at, seq_length by (rewrite seq_length; lia).
  replace (S (n - 1)) with n by lia. rewrite Nat.eqb_refl. cbn [andb].
  apply forallb_forall. intros k Hk. apply in_seq in Hk. apply existsb_exists. exists k. split; [|apply Nat.eqb_refl].
  apply In_insert_at; [rewrite length_remove_at, seq_length; rewrite ?seq_length; lia|].
  destruct (Nat.eq_dec k q) as [->|Hne]; [now left|right].
  unfold remove_at. apply in_app_iff.
  destruct (Nat.lt_ge_cases k q).
  - left. apply (nth_error_In _ k). rewrite nth_error_firstn', nth_error_seq'.
    destruct (Nat.ltb_spec k q), (Nat.ltb_spec k n); try lia. reflexivity.
  - right. apply (nth_error_In _ (k - S q)). rewrite nth_error_skipn'. replace (S q + (k - S q)) with k by lia.
    rewrite nth_error_seq'. destruct (Nat.ltb_spec k n); try lia. reflexivity.
Qed.

(* one move of an axis recorded in an otherwise empty list of operations *)
Lemma ops_move {V} n q p : exists ops, append_transpose [] (move_axis n q p) = Ok ops /\ length ops <= 1 /\
  (forall (b c : arr V), q < n -> p < n -> length (shp b) = n -> arr_eq b c ->
    exists d, apply_ops ops b = Ok d /\ arr_eq d (mv q p c)).
Proof.
  unfold move_axis. destruct (Nat.eqb_spec q p) as [->|Hne]; cbn [append_transpose].
  - exists []. split; [reflexivity|]. split; [cbn; lia|]. intros b c Hq Hp Hb He.
    exists b. split; [reflexivity|]. apply (arr_eq_trans _ c); [assumption|].
    apply arr_eq_sym, mv_same. destruct He as [<- _]. lia.
  - exists [OpTranspose (insert_at p (nth q (seq 0 n) 0) (remove_at q (seq 0 n)))].
    split; [reflexivity|]. split; [cbn; lia|]. intros b c Hq Hp Hb He.
    cbn [apply_ops apply_op bind]. rewrite seq_nth by assumption. cbn [plus].
    rewrite Hb, (mv_axes_ok n q p) by assumption. cbn [bind]. eexists. split; [reflexivity|].
    subst n. apply (arr_eq_trans _ (mv q p b)).
    + apply (transpose_mv b q p); assumption.
    + apply mv_ext; assumption.
Qed.

Lemma apply_ops_app {V} ops ops' (a : arr V) :
  apply_ops (ops ++ ops') a = let! b := apply_ops ops a in apply_ops ops' b.
Proof.
  revert a. induction ops as [|o ops IH]; intros a; [reflexivity|].
  cbn. destruct (apply_op o a); [|reflexivity]. cbn. apply IH.
Qed.

Lemma klens_mask ks : forall n, nnew ks <= n ->
  klens (repeat 3 n) ks = map (fun b : bool => if b then 3 else 1) (kmask ks).
Proof.
  unfold nnew, kmask. induction ks as [|k ks IH]; intros n Hn; [reflexivity|].
  destruct k; cbn in *.
  - f_equal. now apply IH.
  - destruct n; [lia|]. cbn. apply IH. lia.
  - destruct n; [lia|]. cbn. f_equal. apply IH. lia.
  - destruct n; [lia|]. cbn. apply IH. lia.
Qed.

Lemma kinds_nonew idx : map kind_of (filter (fun i => negb (is_new i)) idx)
  = filter (fun k => match k with KN => false | _ => true end) (map kind_of idx).
Proof. induction idx as [|[] idx IH]; cbn; rewrite ?IH; reflexivity. Qed.
Lemma rkinds_nonew rs : map rkind (nonew rs)
  = filter (fun k => match k with KN => false | _ => true end) (map rkind rs).
Proof. unfold nonew. induction rs as [|[] rs IH]; cbn; rewrite ?IH; reflexivity. Qed.

Lemma resolve_all_nonew idx : forall s rs, resolve_all s idx = Ok rs ->
  resolve_all s (filter (fun i => negb (is_new i)) idx) = Ok (nonew rs).
Proof.
  induction idx as [|i idx IH]; intros s rs H.
  - destruct s; [|discriminate]. injection H as <-. reflexivity.
  - apply resolve_all_cons in H. destruct H as [[-> (rs' & H & ->)]|(Hi & n & s' & r & rs' & -> & H1 & H2 & ->)].
    + cbn. auto.
    + assert (is_new i = false) as E by (destruct i; reflexivity || congruence).
      cbn. rewrite E. cbn. assert (rnew r = false) as ->.
      { apply resolve_kind in H1. destruct r, i; cbn in *; congruence. }
      cbn. apply resolve_all_cons_ok; auto.
Qed.

Lemma kadv_nonew ks : kadv (filter (fun k => match k with KN => false | _ => true end) ks) = kadv ks.
Proof. unfold kadv. induction ks as [|[] ks IH]; cbn; auto. Qed.

Lemma adv_lens_nonew rs : adv_lens (nonew rs) = adv_lens rs.
Proof. unfold adv_lens, nonew. induction rs as [|[] rs IH]; cbn; rewrite ?IH; reflexivity. Qed.

Lemma filter_mask m : filter (fun n => negb (Nat.eqb n 1)) (map (fun b : bool => if b then 3 else 1) m) = repeat 3 (ntrue m).
Proof. unfold ntrue. induction m as [|[] m IH]; cbn; rewrite ?IH; reflexivity. Qed.

Lemma filter_mask_insert p m : p <= length m ->
  filter (fun n => negb (Nat.eqb n 1)) (insert_at p 2 (map (fun b : bool => if b then 3 else 1) m))
  = insert_at (ntrue (firstn p m)) 2 (repeat 3 (ntrue m)).
Proof.
  revert p. induction m as [|b m IH]; intros [|p] Hp; cbn in Hp; try lia; try reflexivity.
  - rewrite insert_0. cbn [filter]. change (negb (2 =? 1)) with true. cbv iota. now rewrite filter_mask.
  - cbn [map]. rewrite insert_cons. cbn [firstn]. rewrite !ntrue_cons. destruct b; cbn [plus repeat].
    + rewrite insert_cons. cbn. rewrite IH by lia. reflexivity.
    + cbn. rewrite IH by lia. reflexivity.
Qed.

Lemma resolve_all_length idx : forall s rs, resolve_all s idx = Ok rs -> length s = nnew (map kind_of idx).
Proof.
  unfold nnew. induction idx as [|i idx IH]; intros s rs H.
  - destruct s; [reflexivity|discriminate].
  - apply resolve_all_cons in H. destruct H as [[-> (rs' & H & ->)]|(Hi & n & s' & r & rs' & -> & H1 & H2 & ->)].
    + cbn. eauto.
    + apply IH in H2. destruct i; cbn in *; congruence.
Qed.

Lemma map_repeat_length_kinds idx :
  length (filter (fun i => negb (is_new i)) (map probe_dimchanging idx)) = nnew (map kind_of idx).
Proof. unfold nnew. induction idx as [|[] idx IH]; cbn; auto. Qed.
Lemma filter_probe idx : filter (fun i => negb (is_new i)) (map probe_dimchanging idx)
  = map probe_dimchanging (filter (fun i => negb (is_new i)) idx).
Proof. induction idx as [|[] idx IH]; cbn; rewrite ?IH; reflexivity. Qed.
Lemma probe_dimchanging_gen : probe_dimchanging = probe_gen [0; 0]%Z.
Proof. reflexivity. Qed.
Lemma Forall_repeat {A} (P : A -> Prop) x n : P x -> Forall P (repeat x n).
Proof. intros H. apply Forall_forall. intros y Hy. now rewrite (repeat_spec _ _ _ Hy). Qed.
Lemma nnew_nonew ks : nnew (filter (fun k => match k with KN => false | _ => true end) ks) = nnew ks.
Proof. unfold nnew. induction ks as [|[] ks IH]; cbn; auto. Qed.
Lemma kmask_nonew ks : kmask (filter (fun k => match k with KN => false | _ => true end) ks) = repeat true (ntrue (kmask ks)).
Proof.
  unfold kmask, ntrue. induction ks as [|k ks IH]; [reflexivity|].
  destruct k; cbn; rewrite ?IH; reflexivity.
Qed.
Lemma nkept_nonew ks : nkept (filter (fun k => match k with KN => false | _ => true end) ks) = ntrue (kmask ks).
Proof. unfold nkept, ntrue, kmask. induction ks as [|[] ks IH]; cbn; auto. Qed.

Lemma mask_of_codes_insert p m :
  map (fun n => if Nat.eqb n 1 then New else full) (insert_at p 2 (map (fun b : bool => if b then 3 else 1) m))
  = map (fun b : bool => if b then full else New) (insert_at p true m).
Proof.
  rewrite !map_insert_at, map_map. cbn. f_equal. apply map_ext. intros []; reflexivity.
Qed.
Lemma mask_of_codes m :
  map (fun n => if Nat.eqb n 1 then New else full) (map (fun b : bool => if b then 3 else 1) m)
  = map (fun b : bool => if b then full else New) m.
Proof. rewrite map_map. apply map_ext. intros []; reflexivity. Qed.
Lemma not_in_mask k m : k <> 1 -> k <> 3 -> ~ In k (map (fun b : bool => if b then 3 else 1) m).
Proof. intros H1 H3 Hi. apply in_map_iff in Hi. destruct Hi as ([] & <- & _); congruence. Qed.

Lemma no_new_no_KN idx : existsb is_new idx = false -> no_new (map kind_of idx).
Proof.
  unfold no_new. induction idx as [|i idx IH]; cbn; [auto|]. rewrite orb_false_iff. intros [H1 H2] [H|H].
  - destruct i; cbn in *; congruence.
  - now apply IH.
Qed.
Lemma filter_id {A} (f : A -> bool) l : (forall x, In x l -> f x = true) -> filter f l = l.
Proof.
  induction l as [|x l IH]; intros H; cbn; [reflexivity|]. rewrite (H x) by now left.
  f_equal. apply IH. intros y Hy. apply H. now right.
Qed.

Lemma extract_newaxis_ok {V} idx s rs so :
  resolve_all s idx = Ok rs -> out_shape rs = Ok so ->
  exists ops so0, extract_newaxis idx = Ok (filter (fun i => negb (is_new i)) idx, ops) /\
    out_shape (nonew rs) = Ok so0 /\
    forall (f : list nat -> V) b, arr_eq b {| shp := so0; elt := out_elt f (nonew rs) |} ->
      exists c, apply_ops ops b = Ok c /\ arr_eq c {| shp := so; elt := out_elt f rs |}.
Proof.
  intros Hr Hso. unfold extract_newaxis.
  pose proof (resolve_all_kind _ _ _ Hr) as Hkind.
  destruct (existsb is_new idx) eqn:En.
  2:{ exists [], so.
      assert (nonew rs = rs) as Hnn.
      { apply filter_id. intros r Hin. apply no_new_no_KN in En. rewrite <- Hkind in En.
        destruct r; try reflexivity. exfalso. apply En. apply in_map_iff. exists RNew. auto. }
      assert (filter (fun i => negb (is_new i)) idx = idx) as ->.
      { apply filter_id. intros i Hin. destruct (is_new i) eqn:Ei; [|reflexivity].
        assert (existsb is_new idx = true) by (apply existsb_exists; eauto). congruence. }
      split; [reflexivity|]. rewrite Hnn. split; [assumption|].
      intros f b Hb. exists b. split; [reflexivity|assumption]. }
  set (ks := map kind_of idx) in *.
  set (n := nnew ks).
  rewrite map_repeat_length_kinds. fold ks n. rewrite filter_probe, probe_dimchanging_gen.
  rewrite (probe_shape _ [0; 0]); [|apply norm00|rewrite repeat_length; reflexivity|now apply Forall_repeat; lia].
  fold ks. cbn [bind length].
  set (ks0 := filter (fun k => match k with KN => false | _ => true end) ks).
  assert ((match repeat 3 n with
           | [] => Ok []
           | _ => np_shape (repeat 3 n) (map (probe_gen [0; 0]%Z) (filter (fun i => negb (is_new i)) idx))
           end) = Ok (kout 2 (repeat 3 n) ks0)) as ->.
  { rewrite (probe_shape _ [0; 0]); [|apply norm00| |now apply Forall_repeat; lia].
    - rewrite kinds_nonew. fold ks ks0. cbn [length]. destruct n eqn:En0; [|reflexivity].
      cbn [repeat]. f_equal. assert (ks0 = []) as ->; [|reflexivity].
      assert (nnew ks0 = 0) as H0 by (unfold ks0; now rewrite nnew_nonew).
      unfold nnew, ks0 in H0.
      assert (filter (fun k => match k with KN => false | _ => true end) ks0 = ks0) as Hid.
      { unfold ks0. apply filter_id. intros k Hk. apply filter_In in Hk. apply Hk. }
      unfold ks0 in *. rewrite Hid in H0. destruct (filter _ ks); [reflexivity|discriminate].
    - rewrite repeat_length, kinds_nonew. fold ks. now rewrite nnew_nonew. }
  cbn [bind].
  assert (klens (repeat 3 n) ks = map (fun b : bool => if b then 3 else 1) (kmask ks)) as Hkl.
  { apply klens_mask. reflexivity. }
  assert (klens (repeat 3 n) ks0 = repeat 3 (ntrue (kmask ks))) as Hkl0.
  { rewrite klens_mask by (unfold ks0; rewrite nnew_nonew; reflexivity).
    unfold ks0. rewrite kmask_nonew. clear. induction (ntrue (kmask ks)) as [|m IH]; cbn; [reflexivity|]. now rewrite IH. }
  unfold kout. rewrite Hkl, Hkl0.
  assert (kadv ks0 = kadv ks) as Ha0 by apply kadv_nonew. rewrite Ha0.
  assert (map rkind (nonew rs) = ks0) as Hk0 by (rewrite rkinds_nonew, Hkind; reflexivity).
  unfold out_shape in Hso |- *. rewrite !has_adv_kind, Hk0, Ha0, adv_lens_nonew, adv_pos_kind, Hk0.
  rewrite has_adv_kind, Hkind, adv_pos_kind, Hkind in Hso. fold ks in Hso.
  assert (length (kept_lens (nonew rs)) = ntrue (kmask ks)) as Hl0.
  { rewrite kept_nonew_length, Hkind. reflexivity. }
  assert (expand1 (kmask ks) (kept_lens (nonew rs)) = kept_lens rs) as Hexp.
  { rewrite <- Hkind. apply expand1_kept. }
  destruct (kadv ks) eqn:Ea.
  - destruct (broadcast (adv_lens rs)) as [L|e] eqn:EL; [|discriminate]. cbn in Hso. injection Hso as <-.
    assert (kpos ks <= length (kmask ks)) as Hp by (rewrite kmask_length; now apply kpos_le).
    assert (kpos ks0 <= ntrue (kmask ks)) as Hp0.
    { unfold ks0. rewrite <- nkept_nonew. apply kpos_le. exact Ha0. }
    rewrite find_pos_insert; [|rewrite repeat_length; assumption|intros Hi; apply repeat_spec in Hi; discriminate].
    rewrite filter_mask_insert by assumption.
    set (p1 := ntrue (firstn (kpos ks) (kmask ks))).
    assert (p1 <= ntrue (kmask ks)) as Hp1 by apply ntrue_firstn_le.
    unfold must_find. rewrite find_pos_insert; [|rewrite repeat_length; assumption|intros Hi; apply repeat_spec in Hi; discriminate].
    cbn [bind]. rewrite length_insert_at, repeat_length.
    destruct (@ops_move V (S (ntrue (kmask ks))) (kpos ks0) p1) as (ops & Hops & Hl & Hap).
    rewrite Hops. cbn [bind].
    assert (forall o, ops_append ops o = Ok (ops ++ [o])) as Happ.
    { intros o. unfold ops_append. destruct (Nat.ltb_spec 1 (length ops)); [lia|reflexivity]. }
    rewrite Happ. cbn [bind]. rewrite mask_of_codes_insert.
    eexists _, _. split; [reflexivity|]. split; [reflexivity|].
    intros f b Hb. rewrite apply_ops_app.
    pose proof Hb as [Hbs _]. cbn [shp] in Hbs.
    assert (length (shp b) = S (ntrue (kmask ks))) as Hbl by (rewrite Hbs, length_insert_at; lia).
    destruct (Hap b _ ltac:(lia) ltac:(lia) Hbl Hb) as (d & -> & Hd). cbn [bind apply_ops apply_op].
    pose proof Hd as [Hds Hde]. cbn [mv shp] in Hds.
    rewrite nth_insert_same, remove_insert_at in Hds by lia.
    destruct (nx_get d (insert_at (kpos ks) true (kmask ks))) as (r & -> & Hrs & Hre).
    { rewrite ntrue_insert, Hds, length_insert_at. lia. }
    cbn [bind]. exists r. split; [reflexivity|].
    rewrite Hds in Hrs. unfold p1 in Hrs. rewrite expand1_insert, Hexp in Hrs by lia.
    split; [exact Hrs|]. intros o Ho. rewrite (Hre o Ho).
    assert (length o = S (nkept ks)) as Hol.
    { rewrite (inside_length _ _ Ho), Hrs, length_insert_at, kept_length, Hkind. reflexivity. }
    assert (nkept ks = length (kmask ks)) as Hnk by (symmetry; apply kmask_length).
    set (j := nth (kpos ks) o 0). set (rest := remove_at (kpos ks) o).
    assert (length rest = length (kmask ks)) as Hrl by (unfold rest; rewrite length_remove_at; lia).
    assert (compress o (insert_at (kpos ks) true (kmask ks)) = insert_at p1 j (compress rest (kmask ks))) as Hco.
    { rewrite <- (insert_remove_at (kpos ks) 0 o) at 1 by lia. apply compress_insert; [assumption|exact Hrl]. }
    rewrite Hde.
    2:{ rewrite Hds. rewrite Hrs in Ho.
        apply (inside_compress (insert_at (kpos ks) true (kmask ks))).
        - rewrite ntrue_insert, length_insert_at. lia.
        - unfold p1. rewrite expand1_insert, Hexp by lia. exact Ho. }
    rewrite Hco. cbn [mv elt shp].
    assert (length (compress rest (kmask ks)) = ntrue (kmask ks)) as Hcl by now apply compress_length.
    rewrite nth_insert_same, remove_insert_at by lia.
    unfold out_elt. rewrite !has_adv_kind, !adv_pos_kind, Hk0, Hkind. fold ks. rewrite Ha0, Ea.
    rewrite nth_insert_same, remove_insert_at by lia. fold j rest.
    rewrite (fill_nonew rs rest j); [|rewrite Hkind; fold ks; lia]. rewrite Hkind. reflexivity.
  - injection Hso as <-.
    rewrite find_pos_none by (intros Hi; apply repeat_spec in Hi; discriminate).
    cbn [bind]. unfold ops_append. cbn [length Nat.ltb Nat.leb bind app]. rewrite mask_of_codes.
    eexists _, _. split; [reflexivity|]. split; [reflexivity|].
    intros f b [Hbs Hbe]. cbn [shp elt] in *. cbn [apply_ops apply_op].
    destruct (nx_get b (kmask ks)) as (r & -> & Hrs & Hre); [rewrite Hbs; exact Hl0|].
    cbn [bind]. exists r. split; [reflexivity|].
    rewrite Hbs, Hexp in Hrs. split; [exact Hrs|]. intros o Ho. rewrite (Hre o Ho).
    rewrite Hrs in Ho.
    rewrite Hbe.
    2:{ rewrite Hbs. apply inside_compress; [exact Hl0|]. now rewrite Hexp. }
    unfold out_elt. rewrite !has_adv_kind, Hk0, Hkind. fold ks. rewrite Ha0, Ea. cbn [elt].
    rewrite (fill_nonew rs o 0); [|rewrite (inside_length _ _ Ho); apply kept_length].
    rewrite Hkind. reflexivity.
Qed.

(* ---- separating the stacking axis ---- *)
Lemma resolve_all_split ax : forall n ia idx' S' rs, ax <= length S' ->
  existsb is_new (insert_at ax ia idx') = false -> length idx' = length S' ->
  resolve_all (insert_at ax n S') (insert_at ax ia idx') = Ok rs ->
  exists r0 rs', rs = insert_at ax r0 rs' /\ resolve n ia = Ok r0 /\ resolve_all S' idx' = Ok rs'
    /\ length rs' = length S'.
Proof.
  induction ax as [|ax IH]; intros n ia idx' S' rs Hax Hnew Hl H.
  - rewrite !insert_0 in H. apply resolve_all_cons in H.
    destruct H as [[-> _]|(Hi & m & s' & r & rs' & E & H1 & H2 & ->)]; [discriminate|].
    injection E as <- <-. exists r, rs'. repeat split; auto.
    apply resolve_all_kind in H2. apply (f_equal (@length kind)) in H2. rewrite !map_length in H2. lia.
  - destruct S' as [|m S']; [cbn in Hax; lia|]. destruct idx' as [|i idx']; [discriminate|].
    rewrite !insert_cons in H. rewrite insert_cons in Hnew. cbn in Hnew. apply orb_false_iff in Hnew.
    destruct Hnew as [Hn1 Hn2].
    apply resolve_all_cons in H.
    destruct H as [[-> _]|(Hi & m' & s' & r & rs' & E & H1 & H2 & ->)]; [discriminate|].
    injection E as <- <-.
    destruct (IH n ia idx' S' rs' ltac:(cbn in Hax; lia) Hn2 ltac:(cbn in Hl; lia) H2) as (r0 & rs0 & -> & H3 & H4 & H5).
    exists r0, (r :: rs0). split; [reflexivity|]. split; [assumption|]. split; [|cbn; lia].
    now apply resolve_all_cons_ok.
Qed.

Lemma insert_swap {A} (x y : A) l p r : r <= length l -> p <= S (length l) ->
  insert_at p x (insert_at r y l) =
  if r <? p then insert_at r y (insert_at (p - 1) x l) else insert_at (S r) y (insert_at p x l).
Proof.
  intros Hr Hp.
  apply (list_ext_nth x).
  - destruct (r <? p); now rewrite !length_insert_at.
  - intros k Hk. rewrite !length_insert_at in Hk.
    destruct (Nat.ltb_spec r p);
    rewrite !nth_insert_at by (rewrite ?length_insert_at; lia);
    repeat match goal with
    | |- context [?a <? ?b] => destruct (Nat.ltb_spec a b); try lia
    | |- context [?a =? ?b] => destruct (Nat.eqb_spec a b); try lia
    end; try reflexivity; f_equal; lia.
Qed.

Lemma klens_ones ks : forall n, no_new ks -> length ks <= n -> klens (repeat 1 n) ks = repeat 1 (nkept ks).
Proof.
  unfold nkept. induction ks as [|k ks IH]; intros n Hn Hl; [reflexivity|].
  assert (no_new ks) by (intros Hi; apply Hn; now right).
  destruct n; [cbn in Hl; lia|]. cbn in Hl.
  destruct k; cbn; try (f_equal; apply IH; [assumption|lia]); try (apply IH; [assumption|lia]).
  exfalso. apply Hn. now left.
Qed.
Lemma klens_axis ks' : forall ax k0 , no_new ks' -> ax <= length ks' -> k0 <> KN ->
  klens (set_nth (repeat 1 (S (length ks'))) ax 3) (insert_at ax k0 ks')
  = if kkept k0 then insert_at (nkept (firstn ax ks')) 3 (repeat 1 (nkept ks')) else repeat 1 (nkept ks').
Proof.
  induction ks' as [|k ks' IH]; intros [|ax] k0 Hn Hax Hk0; cbn [length] in *; try lia.
  - destruct k0; try congruence; reflexivity.
  - assert (klens (repeat 1 (S (length ks'))) (k :: ks') = repeat 1 (nkept (k :: ks'))) as Ho by (apply klens_ones; auto).
    rewrite insert_0. destruct k0; try congruence; cbn [repeat set_nth klens hd tl kkept firstn];
      [exact Ho| |exact Ho].
    rewrite insert_0. f_equal. exact Ho.
  - assert (no_new ks') as Hn' by (intros Hi; apply Hn; now right).
    rewrite insert_cons. cbn [firstn]. rewrite !nkept_cons.
    specialize (IH ax k0 Hn' ltac:(lia) Hk0).
    change (set_nth (repeat 1 (S (S (length ks')))) (S ax) 3) with (1 :: set_nth (repeat 1 (S (length ks'))) ax 3).
    destruct k; cbn [klens hd tl kkept plus].
    + exfalso. apply Hn. now left.
    + exact IH.
    + rewrite IH. destruct (kkept k0); reflexivity.
    + exact IH.
Qed.

Lemma probe_trim_gen idx : existsb is_new idx = false ->
  map probe_trim idx = map (probe_gen [0; 0]%Z) idx.
Proof.
  intros H. apply map_ext_in. intros i Hi. destruct i; try reflexivity.
  assert (existsb is_new idx = true) by (apply existsb_exists; exists New; auto). congruence.
Qed.

Lemma nnew_no_new ks : no_new ks -> nnew ks = length ks.
Proof.
  unfold nnew. induction ks as [|k ks IH]; intros H; [reflexivity|].
  assert (no_new ks) as H' by (intros Hi; apply H; now right).
  destruct k; cbn; rewrite ?IH by assumption; try reflexivity. exfalso. apply H. now left.
Qed.

Lemma existsb_new_remove idx' ax ia : existsb is_new (insert_at ax ia idx') = false ->
  existsb is_new idx' = false /\ is_new ia = false.
Proof.
  unfold insert_at. rewrite existsb_app. cbn. rewrite !orb_false_iff. intros (H1 & H2 & H3).
  split; [|assumption]. rewrite <- (firstn_skipn ax idx'), existsb_app, H1, H3. reflexivity.
Qed.

Lemma kind_list i : is_list i = (match kind_of i with KA => true | _ => false end).
Proof. now destruct i. Qed.

(* the parameters found by extract_axis *)
Definition ex_r (ax : nat) (ks' : list kind) : nat := nkept (firstn ax ks').
Definition ex_axo (ax : nat) (ks' : list kind) : nat :=
  let r := ex_r ax ks' in let p := kpos (insert_at ax KS ks') in
  if kadv ks' then if r <? p then r else S r else r.
Definition ex_q (ax : nat) (ks' : list kind) : nat :=
  if kpos ks' <? ex_axo ax ks' then kpos ks' else S (kpos ks').

Lemma extract_axis_ok idx' ia ax axis n S' :
  existsb is_new (insert_at ax ia idx') = false -> ax <= length idx' -> length S' = length idx' ->
  positiveaxis axis (S (length idx')) = Ok ax ->
  let ks' := map kind_of idx' in
  extract_axis (insert_at ax ia idx') axis (Some (insert_at ax n S')) =
  let out axo ops := Ok (idx', Some S', ia, Some n, axo, ops) in
  match kind_of ia with
  | KA => out (Some (kpos (insert_at ax KA ks'))) []
  | KI =>
      if kadv ks' then
        let! ops := append_transpose [] (move_axis (S (nkept ks')) (kpos ks') (kpos (insert_at ax KI ks'))) in
        out None ops
      else out None []
  | _ =>
      if kadv ks' then
        let! ops := append_transpose [] (move_axis (S (S (nkept ks'))) (ex_q ax ks') (kpos (insert_at ax KS ks'))) in
        out (Some (ex_axo ax ks')) ops
      else out (Some (ex_axo ax ks')) []
  end.
Proof.
  intros Hnew Hax Hl Hpa ks'. unfold extract_axis.
  rewrite length_insert_at, Hpa. cbn [bind].
  assert (forall A (x : A) l, ax <= length l -> nth_error (insert_at ax x l) ax = Some x) as Hnth.
  { intros A x l H. unfold insert_at. rewrite nth_error_app2 by (rewrite firstn_length; lia).
    rewrite firstn_length, Nat.min_l, Nat.sub_diag by lia. reflexivity. }
  rewrite Hnth by assumption. rewrite Hnth by lia.
  rewrite !remove_insert_at by lia. cbn [bind].
  destruct (existsb_new_remove _ _ _ Hnew) as [Hnew' Hia].
  assert (no_new ks') as Hnn by now apply no_new_no_KN.
  assert (no_new (map kind_of (insert_at ax ia idx'))) as Hnn0 by now apply no_new_no_KN.
  assert (length ks' = length idx') as Hkl by apply map_length.
  assert (forall k, kadv (insert_at ax k ks') = match k with KA => true | _ => kadv ks' end) as Hka.
  { intros k. destruct k; try (apply kadv_insert_false; discriminate). apply kadv_insert_true. }
  assert (kind_of ia <> KN) as Hkia by (destruct ia; discriminate).
  assert (dimnonchanging_axis (insert_at ax ia idx')
          = Ok (if kadv (insert_at ax (kind_of ia) ks') then Some (kpos (insert_at ax (kind_of ia) ks')) else None)) as ->.
  { unfold dimnonchanging_axis.
    destruct (insert_at ax ia idx') as [|i0 l0] eqn:E.
    { apply (f_equal (@length ind)) in E. rewrite length_insert_at in E. discriminate. }
    rewrite <- E. rewrite <- E in *.
    rewrite probe_dimchanging_gen, (probe_shape _ [0; 0]); [|apply norm00| |now apply Forall_repeat; lia].
    2:{ rewrite repeat_length. rewrite <- (map_length kind_of), kinds_nonew. reflexivity. }
    cbn [bind length]. f_equal. unfold kout. rewrite map_insert_at. fold ks'.
    rewrite map_insert_at in Hnn0. fold ks' in Hnn0.
    rewrite klens_ones; [|exact Hnn0|].
    2:{ rewrite <- (map_length kind_of), kinds_nonew, map_insert_at. fold ks'.
        fold (nnew (insert_at ax (kind_of ia) ks')). rewrite nnew_no_new by assumption. reflexivity. }
    destruct (kadv (insert_at ax (kind_of ia) ks')) eqn:Ea.
    - apply find_pos_insert; [rewrite repeat_length; now apply kpos_le|]. intros Hi. apply repeat_spec in Hi. discriminate.
    - apply find_pos_none. intros Hi. apply repeat_spec in Hi. discriminate. }
  cbn [bind]. rewrite kind_list.
  destruct (kind_of ia) eqn:Ek; [congruence| | |].
  - (* an integer *)
    rewrite probe_trim_gen by assumption.
    rewrite (probe_shape _ [0; 0]); [|apply norm00| |].
    2:{ rewrite set_nth_length, repeat_length, nnew_no_new, map_length, length_insert_at by assumption. reflexivity. }
    2:{ apply Forall_forall. intros x Hx. apply In_nth_error in Hx. destruct Hx as (k & Hx).
        rewrite nth_error_set_nth in Hx. destruct (Nat.eqb k ax).
        - destruct (Nat.ltb _ _); [|discriminate]. injection Hx as <-. lia.
        - apply nth_error_In in Hx. apply repeat_spec in Hx. lia. }
    cbn [bind length]. unfold kout. rewrite map_insert_at, Ek. fold ks'. rewrite Hka, <- Hkl, klens_axis; [|assumption|lia|discriminate].
    cbn [kkept]. destruct (kadv ks') eqn:Ea.
    + assert (kpos (insert_at ax KI ks') <= nkept ks') as Hp.
      { pose proof (kpos_le (insert_at ax KI ks')) as H. rewrite nkept_insert, Hka in H. apply H. reflexivity. }
      rewrite find_pos_insert; [|rewrite repeat_length; assumption|intros Hi; apply repeat_spec in Hi; discriminate].
      assert (find_pos 3 (insert_at (kpos (insert_at ax KI ks')) 2 (repeat 1 (nkept ks'))) = None) as ->.
      { apply find_pos_none. intros Hi. apply In_insert_at in Hi; [|rewrite repeat_length; assumption].
        destruct Hi as [Hi|Hi]; [discriminate|]. apply repeat_spec in Hi. discriminate. }
      rewrite probe_trim_gen by assumption.
      rewrite (probe_shape _ [0; 0]); [|apply norm00| |now apply Forall_repeat; lia].
      2:{ rewrite repeat_length. fold ks'. rewrite nnew_no_new by assumption. lia. }
      cbn [bind length]. unfold kout. fold ks'. rewrite Ea. rewrite klens_ones by (assumption || lia).
      assert (kpos ks' <= nkept ks') as Hp' by now apply kpos_le.
      assert (existsb (Nat.eqb 2) (insert_at (kpos ks') 2 (repeat 1 (nkept ks'))) = true) as ->.
      { apply existsb_exists. exists 2. split; [|reflexivity]. apply In_insert_at; [rewrite repeat_length; assumption|now left]. }
      unfold must_find. rewrite find_pos_insert; [|rewrite repeat_length; assumption|intros Hi; apply repeat_spec in Hi; discriminate].
      cbn [bind]. rewrite length_insert_at, repeat_length. reflexivity.
    + rewrite !find_pos_none; [reflexivity| |]; intros Hi; apply repeat_spec in Hi; discriminate.
  - (* a slice *)
    rewrite probe_trim_gen by assumption.
    rewrite (probe_shape _ [0; 0]); [|apply norm00| |].
    2:{ rewrite set_nth_length, repeat_length, nnew_no_new, map_length, length_insert_at by assumption. reflexivity. }
    2:{ apply Forall_forall. intros x Hx. apply In_nth_error in Hx. destruct Hx as (k & Hx).
        rewrite nth_error_set_nth in Hx. destruct (Nat.eqb k ax).
        - destruct (Nat.ltb _ _); [|discriminate]. injection Hx as <-. lia.
        - apply nth_error_In in Hx. apply repeat_spec in Hx. lia. }
    cbn [bind length]. unfold kout. rewrite map_insert_at, Ek. fold ks'. rewrite Hka, <- Hkl, klens_axis; [|assumption|lia|discriminate].
    cbn [kkept]. unfold ex_q, ex_axo. fold (ex_r ax ks'). cbn zeta.
    assert (ex_r ax ks' <= nkept ks') as Hr by apply nkept_firstn_le.
    destruct (kadv ks') eqn:Ea.
    + set (r := ex_r ax ks') in *. set (p := kpos (insert_at ax KS ks')).
      assert (p <= S (nkept ks')) as Hp.
      { unfold p. pose proof (kpos_le (insert_at ax KS ks')) as H. rewrite nkept_insert, Hka in H. apply H. reflexivity. }
      assert (forall k m, k <> 1 -> ~ In k (repeat 1 m)) as Hin.
      { intros k m Hk Hi. apply repeat_spec in Hi. congruence. }
      assert (find_pos 3 (insert_at p 2 (insert_at r 3 (repeat 1 (nkept ks')))) = Some (if r <? p then r else S r)) as ->.
      { rewrite insert_swap by (rewrite repeat_length; lia).
        destruct (Nat.ltb_spec r p); apply find_pos_insert; rewrite ?length_insert_at, ?repeat_length; try lia;
        intros Hi; (apply In_insert_at in Hi; [|rewrite repeat_length; lia]);
        (destruct Hi as [Hi|Hi]; [discriminate|]; revert Hi; now apply Hin). }
      rewrite find_pos_insert.
      2:{ rewrite length_insert_at, repeat_length. lia. }
      2:{ intros Hi. apply In_insert_at in Hi; [|rewrite repeat_length; lia].
          destruct Hi as [Hi|Hi]; [discriminate|]. revert Hi. now apply Hin. }
      rewrite probe_trim_gen by assumption.
      rewrite (probe_shape _ [0; 0]); [|apply norm00| |now apply Forall_repeat; lia].
      2:{ rewrite repeat_length. fold ks'. rewrite nnew_no_new by assumption. lia. }
      cbn [bind length]. unfold kout. fold ks'. rewrite Ea. rewrite klens_ones by (assumption || lia).
      assert (kpos ks' <= nkept ks') as Hp' by now apply kpos_le.
      assert (existsb (Nat.eqb 2) (insert_at (kpos ks') 2 (repeat 1 (nkept ks'))) = true) as ->.
      { apply existsb_exists. exists 2. split; [|reflexivity]. apply In_insert_at; [rewrite repeat_length; assumption|now left]. }
      unfold must_find.
      set (axo := if r <? p then r else S r).
      assert (axo <= S (nkept ks')) as Haxo by (unfold axo; destruct (Nat.ltb_spec r p); lia).
      assert (find_pos 2 (insert_at axo 3 (insert_at (kpos ks') 2 (repeat 1 (nkept ks'))))
              = Some (if kpos ks' <? axo then kpos ks' else S (kpos ks'))) as ->.
      { rewrite insert_swap by (rewrite repeat_length; lia).
        destruct (Nat.ltb_spec (kpos ks') axo); apply find_pos_insert; rewrite ?length_insert_at, ?repeat_length; try lia;
        intros Hi; (apply In_insert_at in Hi; [|rewrite repeat_length; lia]);
        (destruct Hi as [Hi|Hi]; [discriminate|]; revert Hi; now apply Hin). }
      cbn [bind]. rewrite !length_insert_at, repeat_length. reflexivity.
    + rewrite find_pos_insert; [|rewrite repeat_length; assumption|intros Hi; apply repeat_spec in Hi; discriminate].
      rewrite find_pos_none; [reflexivity|]. intros Hi.
      apply In_insert_at in Hi; [|rewrite repeat_length; assumption].
      destruct Hi as [Hi|Hi]; [discriminate|]. apply repeat_spec in Hi. discriminate.
  - now rewrite Hka.
Qed.
