From Coq Require Import DecimalString DecimalZ.
From Verif Require Import BaseProofs ListToolsProofs HashModel HashSpec.

(* ---- strings ---- *)
Lemma str_leb_refl s : str_leb s s = true.
Proof.
  induction s as [|a s IH]; cbn; [reflexivity|].
  rewrite N.ltb_irrefl, N.eqb_refl. exact IH.
Qed.

Lemma N_of_ascii_inj a b : N_of_ascii a = N_of_ascii b -> a = b.
Proof.
  intros H. rewrite <- (ascii_N_embedding a), <- (ascii_N_embedding b). now rewrite H.
Qed.

Lemma str_leb_total s t : str_leb s t = true \/ str_leb t s = true.
Proof.
  revert t; induction s as [|a s IH]; intros [|b t]; cbn; auto.
  destruct (N.ltb_spec (N_of_ascii a) (N_of_ascii b)); auto.
  destruct (N.ltb_spec (N_of_ascii b) (N_of_ascii a)); auto.
  assert (E : N_of_ascii a = N_of_ascii b) by lia. rewrite E, N.eqb_refl. apply IH.
Qed.

Lemma str_leb_trans s t u : str_leb s t = true -> str_leb t u = true -> str_leb s u = true.
Proof.
  revert t u; induction s as [|a s IH]; intros [|b t] [|c u]; cbn; auto; try discriminate.
  destruct (N.ltb_spec (N_of_ascii a) (N_of_ascii b)),
           (N.ltb_spec (N_of_ascii b) (N_of_ascii c)),
           (N.ltb_spec (N_of_ascii a) (N_of_ascii c)); auto; try lia;
  destruct (N.eqb_spec (N_of_ascii a) (N_of_ascii b)),
           (N.eqb_spec (N_of_ascii b) (N_of_ascii c)),
           (N.eqb_spec (N_of_ascii a) (N_of_ascii c)); auto; try lia; try discriminate.
  apply IH.
Qed.

Lemma str_leb_antisym s t : str_leb s t = true -> str_leb t s = true -> s = t.
Proof.
  revert t; induction s as [|a s IH]; intros [|b t]; cbn; auto; try discriminate.
  destruct (N.ltb_spec (N_of_ascii a) (N_of_ascii b)),
           (N.ltb_spec (N_of_ascii b) (N_of_ascii a)); try lia;
  destruct (N.eqb_spec (N_of_ascii a) (N_of_ascii b)),
           (N.eqb_spec (N_of_ascii b) (N_of_ascii a)); try lia; try discriminate.
  intros H1 H2. f_equal; [now apply N_of_ascii_inj|auto].
Qed.

Lemma append_length s t : String.length (append s t) = (String.length s + String.length t)%nat.
Proof. induction s as [|a s IH]; cbn; [reflexivity|]. now rewrite IH. Qed.

Lemma append_inj s s' t t' :
  String.length s = String.length s' -> append s t = append s' t' -> s = s' /\ t = t'.
Proof.
  revert s'; induction s as [|a s IH]; intros [|b s']; cbn; try discriminate; auto.
  intros [= Hl] [= -> H]. destruct (IH _ Hl H) as [-> ->]. auto.
Qed.

Lemma append_inv_l s t t' : append s t = append s t' -> t = t'.
Proof. induction s as [|a s IH]; cbn; auto. intros [= H]. auto. Qed.

Lemma join_inj n l l' :
  (0 < n)%nat -> Forall (fun s => String.length s = n) l -> Forall (fun s => String.length s = n) l' ->
  join l = join l' -> l = l'.
Proof.
  intros Hn. revert l'. induction l as [|s l IH]; intros [|s' l'] H1 H2; cbn; auto.
  - intros E. exfalso. inversion H2; subst. assert (El : String.length (append s' (join l')) = O) by now rewrite <- E.
    rewrite append_length in El. lia.
  - intros E. exfalso. inversion H1; subst. assert (El : String.length (append s (join l)) = O) by now rewrite E.
    rewrite append_length in El. lia.
  - inversion H1; inversion H2; subst. intros E. apply append_inj in E; [|congruence].
    destruct E as [-> E]. f_equal. auto.
Qed.

(* ---- sorting uniqueness ---- *)
Lemma sorted_unique {A} (R : A -> A -> Prop) l1 l2 :
  (forall x y, In x l1 -> In y l1 -> R x y -> R y x -> x = y) ->
  StronglySorted R l1 -> StronglySorted R l2 -> Permutation l1 l2 -> l1 = l2.
Proof.
  revert l2. induction l1 as [|a l1 IH]; intros l2 Ha H1 H2 Hp.
  - apply Permutation_nil in Hp. now subst.
  - destruct l2 as [|b l2]; [symmetry in Hp; apply Permutation_nil in Hp; discriminate|].
    inversion H1 as [|? ? Hs1 Hf1]; inversion H2 as [|? ? Hs2 Hf2]; subst.
    rewrite Forall_forall in Hf1, Hf2.
    assert (E : a = b).
    { assert (Hb : In b (a :: l1)) by (eapply Permutation_in; [symmetry; exact Hp|cbn; auto]).
      assert (Ha' : In a (b :: l2)) by (eapply Permutation_in; [exact Hp|cbn; auto]).
      destruct Hb as [->|Hb]; [reflexivity|]. destruct Ha' as [->|Ha']; [reflexivity|].
      apply Ha; cbn; auto. }
    subst b. f_equal. apply IH; auto.
    + intros x y Hx Hy. apply Ha; cbn; auto.
    + eapply Permutation_cons_inv; exact Hp.
Qed.

Lemma sorted_perm_eq l l' : Permutation l l' -> sorted str_leb l = sorted str_leb l'.
Proof.
  intros Hp. apply (sorted_unique (fun p q => str_leb p q = true)).
  - intros x y _ _. apply str_leb_antisym.
  - apply sorted_sorted; [apply str_leb_total|apply str_leb_trans].
  - apply sorted_sorted; [apply str_leb_total|apply str_leb_trans].
  - now rewrite !sorted_perm.
Qed.

Definition le2 {B} (p q : string * B) : bool := str_leb (fst p) (fst q).

Lemma sorted2_sorted {B} (l : list (string * B)) :
  StronglySorted (fun p q => le2 p q = true) (sorted le2 l).
Proof.
  apply sorted_sorted.
  - intros x y; apply str_leb_total.
  - intros x y z; apply str_leb_trans.
Qed.

Lemma sorted2_perm_eq {B} (l l' : list (string * B)) :
  NoDup (map fst l) -> Permutation l l' -> sorted le2 l = sorted le2 l'.
Proof.
  intros Hn Hp. apply (sorted_unique (fun p q => le2 p q = true)).
  - intros [x a] [y b] Hx Hy H1 H2. unfold le2 in *; cbn in *.
    assert (E : x = y) by (apply str_leb_antisym; assumption). subst y. f_equal.
    rewrite sorted_perm in Hx, Hy.
    clear -Hn Hx Hy. induction l as [|[z c] l IH]; [destruct Hx|].
    cbn in Hn. inversion Hn as [|? ? Hz Hn']; subst.
    destruct Hx as [E|Hx], Hy as [E'|Hy]; auto; try congruence.
    + injection E as -> ->. exfalso; apply Hz. change x with (fst (x, b)). now apply in_map.
    + injection E' as -> ->. exfalso; apply Hz. change x with (fst (x, a)). now apply in_map.
  - apply sorted2_sorted.
  - apply sorted2_sorted.
  - now rewrite !sorted_perm.
Qed.

(* ---- induction on values ---- *)
Section PyInd.
Context (P : pyval -> Prop).
Hypothesis H0 : P PNone.
Hypothesis H1 : forall b s, P (PStr b s).
Hypothesis H2 : forall n, P (PNum n).
Hypothesis H3 : forall k l, Forall P l -> P (PSeq k l).
Hypothesis H4 : forall v, P v -> P (PArr0 v).
Hypothesis H5 : forall f l, Forall P l -> P (PSet f l).
Hypothesis H6 : forall o l, Forall (fun kv => P (fst kv) /\ P (snd kv)) l -> P (PMap o l).
Hypothesis H7 : forall v u, P v -> P (PQty v u).
Fixpoint pyval_ind' (x : pyval) : P x :=
  let go := fix go (l : list pyval) : Forall P l :=
    match l with [] => Forall_nil P | v :: l' => Forall_cons v (pyval_ind' v) (go l') end in
  let go2 := fix go2 (l : list (pyval * pyval)) : Forall (fun kv => P (fst kv) /\ P (snd kv)) l :=
    match l with
    | [] => Forall_nil _
    | kv :: l' => Forall_cons kv (conj (pyval_ind' (fst kv)) (pyval_ind' (snd kv))) (go2 l')
    end in
  match x with
  | PNone => H0 | PStr b s => H1 b s | PNum n => H2 n
  | PSeq k l => H3 k l (go l) | PArr0 v => H4 v (pyval_ind' v)
  | PSet f l => H5 f l (go l) | PMap o l => H6 o l (go2 l)
  | PQty v u => H7 v u (pyval_ind' v)
  end.
End PyInd.

(* ---- the recursion limit ---- *)
Fixpoint height (x : pyval) : nat :=
  S match x with
    | PNone | PStr _ _ | PNum _ => O
    | PSeq _ l => list_max (map height l)
    | PArr0 v => height v
    | PSet _ l => list_max (map height l)
    | PMap _ l => list_max (map (fun kv => Nat.max (height (fst kv)) (height (snd kv))) l)
    | PQty v _ => Nat.max (height v) 1
    end.

Section Depth.
Context (md5 : string -> string).
Notation calchash := (calchash md5).
Notation digest := (digest md5).

Definition guard (d h : nat) (s : string) : result string :=
  if (d + h <=? 100)%nat then Ok s else Err RuntimeError.

Lemma mapM_guard {A} (f : A -> result string) (g : A -> string) (h : A -> nat) d l :
  (d <= 100)%nat ->
  (forall x, In x l -> f x = guard d (h x) (g x)) ->
  mapM f l = if (d + list_max (map h l) <=? 100)%nat then Ok (map g l) else Err RuntimeError.
Proof.
  intros Hd. induction l as [|x l IH]; intros H.
  - cbn. rewrite Nat.add_0_r. destruct (Nat.leb_spec d 100); [reflexivity|lia].
  - cbn [mapM map list_max fold_right]. rewrite (H x) by (cbn; auto). unfold guard.
    change (fold_right Nat.max 0%nat (map h l)) with (list_max (map h l)).
    rewrite IH by (intros; apply H; cbn; auto).
    destruct (Nat.leb_spec (d + h x) 100); cbn [bind].
    + destruct (Nat.leb_spec (d + list_max (map h l)) 100); cbn [bind];
        destruct (Nat.leb_spec (d + Nat.max (h x) (list_max (map h l))) 100); try lia; reflexivity.
    + destruct (Nat.leb_spec (d + Nat.max (h x) (list_max (map h l))) 100); [lia|reflexivity].
Qed.

Lemma combine_map {A B C} (f : A -> B) (g : A -> C) l :
  combine (map f l) (map g l) = map (fun x => (f x, g x)) l.
Proof. induction l as [|a l IH]; cbn; [reflexivity|]. now rewrite IH. Qed.

Lemma sort2lists_combine {B} (ks : list string) (vs : list B) :
  combine ks vs <> [] ->
  sort2lists str_leb ks vs = Some (map fst (sorted le2 (combine ks vs)), map snd (sorted le2 (combine ks vs))).
Proof.
  intros H. unfold sort2lists. fold (@le2 B).
  change (fun p q => str_leb (fst p) (fst q)) with (@le2 B).
  destruct (sorted le2 (combine ks vs)) as [|p s] eqn:E; [|reflexivity].
  exfalso. apply H. pose proof (sorted_perm le2 (combine ks vs)) as Hp. rewrite E in Hp.
  now apply Permutation_nil in Hp.
Qed.

Lemma list_max_pair {A} (f g : A -> nat) l :
  list_max (map (fun x => Nat.max (f x) (g x)) l) = Nat.max (list_max (map f l)) (list_max (map g l)).
Proof.
  unfold list_max. induction l as [|a l IH]; [reflexivity|]. cbn [map fold_right]. lia.
Qed.

Lemma height_pos x : (1 <= height x)%nat.
Proof. destruct x; cbn [height]; lia. Qed.

Lemma guard_100 x s : guard 100 (height x) s = Err RuntimeError.
Proof.
  unfold guard. pose proof (height_pos x).
  destruct (Nat.leb_spec (100 + height x) 100); [lia|reflexivity].
Qed.

Lemma calchash_digest x : forall d, (d <= 100)%nat -> calchash d x = guard d (height x) (digest x).
Proof.
  induction x as [|b s|n|k l IH|v IH|f l IH|o l IH|v u IH] using pyval_ind'; intros d Hd;
    cbn [HashModel.calchash]; destruct (Nat.eqb_spec d 100) as [->|Hd'];
    try (symmetry; apply guard_100);
    assert (HSd : (S d <= 100)%nat) by lia.
  - unfold guard; cbn [height]; destruct (Nat.leb_spec (d + 1) 100); [reflexivity|lia].
  - unfold guard; cbn [height]; destruct (Nat.leb_spec (d + 1) 100); [reflexivity|lia].
  - unfold guard; cbn [height]; destruct (Nat.leb_spec (d + 1) 100); [reflexivity|lia].
  - destruct l as [|x l].
    + unfold guard; cbn; destruct (Nat.leb_spec (d + 1) 100); [reflexivity|lia].
    + rewrite Forall_forall in IH.
      rewrite (mapM_guard _ digest height (S d)) by (auto using in_cons).
      unfold guard. cbn [height].
      destruct (Nat.leb_spec (S d + list_max (map height (x :: l))) 100);
      destruct (Nat.leb_spec (d + S (list_max (map height (x :: l)))) 100); try lia; reflexivity.
  - rewrite IH by lia. unfold guard. cbn [height].
    destruct (Nat.leb_spec (S d + height v) 100);
    destruct (Nat.leb_spec (d + S (height v)) 100); try lia; reflexivity.
  - destruct l as [|x l].
    + unfold guard; cbn; destruct (Nat.leb_spec (d + 1) 100); [reflexivity|lia].
    + rewrite Forall_forall in IH.
      rewrite (mapM_guard _ digest height (S d)) by (auto using in_cons).
      unfold guard. cbn [height].
      destruct (Nat.leb_spec (S d + list_max (map height (x :: l))) 100);
      destruct (Nat.leb_spec (d + S (list_max (map height (x :: l)))) 100); try lia; reflexivity.
  - destruct l as [|x l].
    + unfold guard; cbn; destruct (Nat.leb_spec (d + 1) 100); [destruct o; reflexivity|lia].
    + rewrite Forall_forall in IH. remember (x :: l) as xl eqn:Exl.
      assert (Hdig : digest (PMap o xl) = md5 (join (if o then
          map (fun kv => digest (fst kv)) xl ++ map (fun kv => digest (snd kv)) xl
        else let s := sorted le2 (map (fun kv => (digest (fst kv), digest (snd kv))) xl) in
             map fst s ++ map snd s))) by (rewrite Exl; destruct o; reflexivity).
      rewrite Hdig.
      rewrite (mapM_guard (fun kv => calchash (S d) (fst kv)) (fun kv => digest (fst kv))
                 (fun kv => height (fst kv)) (S d))
        by (auto; intros kv Hkv; apply IH; auto).
      rewrite (mapM_guard (fun kv => calchash (S d) (snd kv)) (fun kv => digest (snd kv))
                 (fun kv => height (snd kv)) (S d))
        by (auto; intros kv Hkv; apply IH; auto).
      unfold guard. cbn [height]. rewrite list_max_pair.
      set (h1 := list_max (map (fun kv => height (fst kv)) xl)).
      set (h2 := list_max (map (fun kv => height (snd kv)) xl)).
      destruct (Nat.leb_spec (d + S (Nat.max h1 h2)) 100);
      destruct (Nat.leb_spec (S d + h1) 100); try lia; cbn [bind]; try reflexivity;
      destruct (Nat.leb_spec (S d + h2) 100); try lia; cbn [bind]; try reflexivity.
      destruct o; [reflexivity|].
      rewrite sort2lists_combine by (rewrite Exl; discriminate).
      rewrite combine_map. reflexivity.
  - rewrite IH by lia. unfold guard. cbn [height].
    destruct (Nat.leb_spec (S d + height v) 100);
    destruct (Nat.leb_spec (d + S (Nat.max (height v) 1)) 100); try lia; cbn [bind]; try reflexivity;
    destruct (Nat.eqb_spec (S d) 100); try lia; try reflexivity.
Qed.

Lemma fold_and_forall {A} (P : A -> Prop) l : fold_right and True (map P l) <-> Forall P l.
Proof.
  induction l as [|x l IH]; cbn; [split; auto|]. rewrite IH. split.
  - intros [H1 H2]; constructor; auto.
  - intros H; inversion H; auto.
Qed.

Lemma Forall2_map_eq {A B C} (R : A -> B -> Prop) (f : A -> C) (g : B -> C) l l' :
  Forall2 R l l' -> (forall a b, In a l -> R a b -> f a = g b) -> map f l = map g l'.
Proof.
  induction 1 as [|a b l l' Hab H IH]; intros Hf; cbn; [reflexivity|].
  f_equal; [apply Hf; cbn; auto|]. apply IH. intros; apply Hf; cbn; auto.
Qed.

Lemma num_text_value n n' z :
  num_value n = Some z -> num_value n' = Some z -> num_text n = num_text n'.
Proof. destruct n, n'; cbn; intros [= <-]; congruence. Qed.

Lemma list_max_perm l l' : Permutation l l' -> list_max l = list_max l'.
Proof. unfold list_max. induction 1; cbn [fold_right]; lia. Qed.

Lemma sc_height x y : same_content x y -> height x = height y.
Proof.
  revert y. induction x as [|b s|n|k l IH|v IH|f l IH|o l IH|v u IH] using pyval_ind';
    intros y H; inversion H; subst; try reflexivity; cbn [height].
  - rewrite Forall_forall in IH. do 2 f_equal. eapply Forall2_map_eq; [eassumption|]. auto.
  - f_equal. auto.
  - rewrite Forall_forall in IH. f_equal. rewrite <- (list_max_perm _ _ (Permutation_map height ltac:(eassumption))).
    f_equal. eapply Forall2_map_eq; [eassumption|]. auto.
  - rewrite Forall_forall in IH. f_equal.
    erewrite <- (list_max_perm _ _ (Permutation_map _ ltac:(eassumption))).
    f_equal. eapply Forall2_map_eq; [eassumption|]. intros a b Ha [Hk Hv].
    f_equal; apply IH; auto.
  - rewrite Forall_forall in IH. do 2 f_equal. eapply Forall2_map_eq; [eassumption|]. intros a b Ha [Hk Hv].
    f_equal; apply IH; auto.
  - f_equal. f_equal. auto.
Qed.

Lemma Forall2_nonempty {A B} (R : A -> B -> Prop) l l' : Forall2 R l l' -> l <> [] -> l' <> [].
Proof. inversion 1; congruence. Qed.

Lemma digest_seq k l : l <> [] -> digest (PSeq k l) = md5 (join (map digest l)).
Proof. destruct l; [congruence|reflexivity]. Qed.
Lemma digest_set f l : l <> [] -> digest (PSet f l) = md5 (join (sorted str_leb (map digest l))).
Proof. destruct l; [congruence|reflexivity]. Qed.
Lemma digest_dict l : l <> [] -> digest (PMap false l) =
  md5 (join (let s := sorted le2 (map (fun kv => (digest (fst kv), digest (snd kv))) l) in
             map fst s ++ map snd s)).
Proof. destruct l; [congruence|reflexivity]. Qed.
Lemma digest_odict l : l <> [] -> digest (PMap true l) =
  md5 (join (map (fun kv => digest (fst kv)) l ++ map (fun kv => digest (snd kv)) l)).
Proof. destruct l; [congruence|reflexivity]. Qed.

Lemma sc_digest x y : same_content x y -> key_digests_differ md5 x -> digest x = digest y.
Proof.
  revert y. induction x as [|b s|n|k l IH|v IH|f l IH|o l IH|v u IH] using pyval_ind';
    intros y H Hd; inversion H; subst; try reflexivity.
  - cbn. now rewrite (num_text_value n n' z) by assumption.
  - cbn [key_digests_differ] in Hd. apply fold_and_forall in Hd. rewrite Forall_forall in IH, Hd.
    match goal with HF : Forall2 same_content _ _ |- _ =>
      rewrite !digest_seq by (eauto using Forall2_nonempty);
      rewrite (Forall2_map_eq _ digest digest _ _ HF) by auto end.
    reflexivity.
  - cbn [key_digests_differ] in Hd. cbn [HashSpec.digest]. rewrite (IH v') by assumption. reflexivity.
  - cbn [key_digests_differ] in Hd. apply fold_and_forall in Hd. rewrite Forall_forall in IH, Hd.
    match goal with HF : Forall2 same_content _ ?m, HP : Permutation ?m _ |- _ =>
      assert (Hne : m <> []) by (eauto using Forall2_nonempty);
      assert (Hne' : l' <> []) by (intros ->; symmetry in HP; apply Permutation_nil in HP; congruence);
      rewrite !digest_set by auto;
      rewrite (Forall2_map_eq _ digest digest _ _ HF) by auto;
      rewrite (sorted_perm_eq _ _ (Permutation_map digest HP)) end.
    reflexivity.
  - cbn [key_digests_differ] in Hd. destruct Hd as (Hn & Hdk & Hdv). specialize (Hn eq_refl).
    apply (fold_and_forall (fun kv => key_digests_differ md5 (fst kv))) in Hdk.
    apply (fold_and_forall (fun kv => key_digests_differ md5 (snd kv))) in Hdv.
    rewrite Forall_forall in IH, Hdk, Hdv.
    match goal with HF : Forall2 _ l ?m, HP : Permutation ?m ?l' |- _ =>
      rename HF into HF', HP into HP'; destruct l as [|x l];
      [ inversion HF'; subst; apply Permutation_nil in HP'; subst; reflexivity |];
      set (xl := x :: l) in *;
      assert (Hne : m <> []) by (eapply Forall2_nonempty; [exact HF'|discriminate]);
      assert (Hne' : l' <> []) by (intros ->; symmetry in HP'; apply Permutation_nil in HP'; congruence) end.
    rewrite !digest_dict by (auto; discriminate).
    assert (E : map (fun kv => (digest (fst kv), digest (snd kv))) xl =
                map (fun kv => (digest (fst kv), digest (snd kv))) m).
    { eapply Forall2_map_eq; [exact HF'|]. intros a b Ha [Hk Hv].
      f_equal; apply IH; auto. }
    cbv zeta. rewrite E.
    rewrite (sorted2_perm_eq (map (fun kv => (digest (fst kv), digest (snd kv))) m)
               (map (fun kv => (digest (fst kv), digest (snd kv))) l')).
    + reflexivity.
    + rewrite <- E, map_map. cbn. exact Hn.
    + apply Permutation_map. exact HP'.
  - cbn [key_digests_differ] in Hd. destruct Hd as (_ & Hdk & Hdv).
    apply (fold_and_forall (fun kv => key_digests_differ md5 (fst kv))) in Hdk.
    apply (fold_and_forall (fun kv => key_digests_differ md5 (snd kv))) in Hdv.
    rewrite Forall_forall in IH, Hdk, Hdv.
    match goal with HF : Forall2 _ l ?l' |- _ => rename HF into HF';
      destruct l as [|x l]; [inversion HF'; subst; reflexivity|];
      assert (Hne' : l' <> []) by (eapply Forall2_nonempty; [exact HF'|discriminate]) end.
    set (xl := x :: l) in *.
    rewrite !digest_odict by (auto; discriminate).
    assert (E1 : map (fun kv => digest (fst kv)) xl = map (fun kv => digest (fst kv)) l').
    { eapply Forall2_map_eq; [exact HF'|]. intros a b Ha [Hk Hv]. apply IH; auto. }
    assert (E2 : map (fun kv => digest (snd kv)) xl = map (fun kv => digest (snd kv)) l').
    { eapply Forall2_map_eq; [exact HF'|]. intros a b Ha [Hk Hv]. apply IH; auto. }
    rewrite E1, E2. reflexivity.
  - cbn [key_digests_differ] in Hd. cbn [HashSpec.digest]. rewrite (IH v') by assumption. reflexivity.
Qed.

Lemma same_content_calchash x y :
  same_content x y -> key_digests_differ md5 x -> calchash 0 x = calchash 0 y.
Proof.
  intros H Hd. rewrite !calchash_digest by lia.
  now rewrite (sc_height _ _ H), (sc_digest _ _ H Hd).
Qed.

Lemma calchash_Ok_digest x h : calchash 0 x = Ok h -> h = digest x.
Proof.
  rewrite calchash_digest by lia. unfold guard.
  destruct (Nat.leb (0 + height x) 100); congruence.
Qed.

Lemma calchash_ok_iff x : (exists h, calchash 0 x = Ok h) <-> (height x <= 100)%nat.
Proof.
  rewrite calchash_digest by lia. unfold guard. rewrite Nat.add_0_l.
  destruct (Nat.leb_spec (height x) 100); split; eauto; try lia. intros [h [=]].
Qed.

(* ---- injectivity on ordered values ---- *)
Lemma str_of_Z_inj a b : str_of_Z a = str_of_Z b -> a = b.
Proof.
  unfold str_of_Z. intros H.
  assert (H' : NilZero.int_of_string (NilZero.string_of_int (Z.to_int a)) =
               NilZero.int_of_string (NilZero.string_of_int (Z.to_int b))) by now rewrite H.
  assert (Hnn : forall z, Z.to_int z <> Decimal.Pos Decimal.Nil /\ Z.to_int z <> Decimal.Neg Decimal.Nil).
  { intros z. split; intros E; pose proof (DecimalZ.of_to z) as Ez; rewrite E in Ez; cbn in Ez; subst z; discriminate. }
  rewrite !NilZero.isi in H' by apply Hnn.
  injection H' as H'. rewrite <- (DecimalZ.of_to a), <- (DecimalZ.of_to b). now rewrite H'.
Qed.

Lemma int_of_str_of_Z z : NilZero.int_of_string (str_of_Z z) = Some (Z.to_int z).
Proof.
  unfold str_of_Z. apply NilZero.isi; intros E; pose proof (DecimalZ.of_to z) as Ez;
  rewrite E in Ez; cbn in Ez; subst z; discriminate.
Qed.

Hypothesis Hhex : hexlike md5.

Lemma digest_len x : String.length (digest x) = 32%nat.
Proof. destruct x; apply Hhex. Qed.

Lemma digest_md5 x : ordered x -> digest x = md5 (digest_input md5 x).
Proof.
  destruct x as [|b s|n|k l|v|f l|o l|v u]; cbn [ordered]; intros Ho; try reflexivity.
  - destruct Ho.
  - destruct Ho as [-> _]. destruct l; reflexivity.
Qed.

Definition is_hashlist (x : pyval) (hs : list string) : Prop :=
  digest_input md5 x = join hs /\ hs <> [] /\ Forall (fun s => exists t, s = md5 t) hs.

Lemma get0_append s t : String.length s = 32%nat -> String.get 0 (append s t) = String.get 0 s.
Proof. destruct s; cbn; [discriminate|reflexivity]. Qed.

Lemma hashlist_first hs :
  hs <> [] -> Forall (fun s => exists t, s = md5 t) hs -> String.get 0 (join hs) <> Some "<"%char.
Proof.
  destruct hs as [|h hs]; [congruence|]. intros _ Hf. inversion Hf as [|? ? [t ->] _]; subst.
  cbn [join]. rewrite get0_append by apply Hhex. apply Hhex.
Qed.

Lemma hashlist_len hs :
  Forall (fun s => exists t, s = md5 t) hs -> Forall (fun s => String.length s = 32%nat) hs.
Proof. apply Forall_impl. intros s [t ->]. apply Hhex. Qed.

Lemma hashlist_inj hs hs' :
  Forall (fun s => exists t, s = md5 t) hs -> Forall (fun s => exists t, s = md5 t) hs' ->
  join hs = join hs' -> hs = hs'.
Proof. intros H H'. apply (join_inj 32); auto using hashlist_len. lia. Qed.

(* children of a container value, as flat trees and as digests *)
Inductive kids : pyval -> list pyval -> Prop :=
| kids_seq k l : l <> [] -> kids (PSeq k l) l
| kids_arr0 v : kids (PArr0 v) [v]
| kids_map l : l <> [] -> kids (PMap true l) (map fst l ++ map snd l)
| kids_qty v u : kids (PQty v u) [v; PStr false u].

Lemma kids_flat x l : kids x l -> flatval x = FNode (map flatval l).
Proof.
  destruct 1 as [k l Hl|v|l Hl|v u]; cbn; try reflexivity.
  - destruct l; [congruence|reflexivity].
  - rewrite map_app, !map_map. destruct l; [congruence|reflexivity].
Qed.

Lemma kids_input x l : kids x l -> digest_input md5 x = join (map digest l).
Proof.
  destruct 1 as [k l Hl|v|l Hl|v u]; try reflexivity.
  - destruct l; [congruence|reflexivity].
  - rewrite map_app, !map_map. destruct l; [congruence|reflexivity].
Qed.

Lemma kids_nonempty x l : kids x l -> l <> [].
Proof.
  destruct 1 as [k l Hl|v|l Hl|v u]; auto; try discriminate.
  destruct l; [congruence|discriminate].
Qed.

Lemma kids_ordered x l : kids x l -> ordered x -> Forall ordered l.
Proof.
  destruct 1 as [k l Hl|v|l Hl|v u]; cbn [ordered].
  - apply fold_and_forall.
  - auto.
  - intros (_ & H1 & H2).
    apply (fold_and_forall (fun kv => ordered (fst kv))) in H1.
    apply (fold_and_forall (fun kv => ordered (snd kv))) in H2.
    apply Forall_app; split; apply Forall_map; assumption.
  - intros H. repeat constructor; assumption.
Qed.

Lemma kids_inputs x l : kids x l -> forall y, In y l -> incl (digest_inputs md5 y) (digest_inputs md5 x).
Proof.
  destruct 1 as [k l Hl|v|l Hl|v u]; intros y Hy s Hs; cbn [digest_inputs]; right.
  - apply in_flat_map. eauto.
  - destruct Hy as [<-|[]]. exact Hs.
  - apply in_app_iff in Hy. apply in_app_iff. destruct Hy as [Hy|Hy]; apply in_map_iff in Hy;
      destruct Hy as (kv & <- & Hkv); [left|right]; apply in_flat_map; eauto.
  - apply in_app_iff. destruct Hy as [<-|[<-|[]]]; [now left|].
    right. cbn in Hs. exact Hs.
Qed.

(* leaves *)
Definition leaf (x : pyval) : Prop :=
  match x with
  | PNone | PStr _ _ | PNum _ | PSeq _ [] | PMap true [] => True
  | _ => False
  end.

Lemma leaf_or_kids x : ordered x -> leaf x \/ exists l, kids x l.
Proof.
  destruct x as [|b s|n|k l|v|f l|o l|v u]; cbn; auto.
  - destruct l; [auto|]. intros _. right. eexists. apply kids_seq. discriminate.
  - intros _. right. eexists. apply kids_arr0.
  - intros (-> & _). destruct l as [|p l]; [auto|]. right. eexists. apply kids_map. discriminate.
  - intros _. right. eexists. apply kids_qty.
Qed.

Lemma leaf_first x : leaf x -> String.get 0 (digest_input md5 x) = Some "<"%char.
Proof.
  destruct x as [|b s|n|k l|v|f l|o l|v u]; cbn; try tauto.
  - destruct l; [reflexivity|tauto].
  - destruct o, l; tauto || reflexivity.
Qed.

Lemma num_text_flat n n' :
  ordered (PNum n) -> ordered (PNum n') -> num_text n = num_text n' -> flat_num n = flat_num n'.
Proof.
  assert (Hp : forall z s, str_of_Z z = append "(" s -> False).
  { intros z s E. pose proof (int_of_str_of_Z z) as H. rewrite E in H. cbn in H. destruct (NilEmpty.uint_of_string s); discriminate. }
  assert (Ht : forall z s, NilZero.int_of_string s = None -> str_of_Z z = s -> False).
  { intros z s E <-. rewrite int_of_str_of_Z in E. discriminate. }
  destruct n as [b|z|z|s|z], n' as [b'|z'|z'|s'|z']; cbn [num_text flat_num num_value ordered];
    intros Ho Ho' E; unfold flat_num; cbn [num_value];
    try (exfalso; eapply Hp; eassumption);
    try (exfalso; eapply Hp; symmetry; eassumption);
    try (exfalso; eapply Ht; [|eassumption]; assumption);
    try (exfalso; eapply Ht; [|symmetry; eassumption]; assumption);
    try (apply str_of_Z_inj in E; congruence); try (f_equal; exact E); try (cbn; congruence).
Qed.

Lemma leaf_flat x y :
  leaf x -> leaf y -> ordered x -> ordered y ->
  digest_input md5 x = digest_input md5 y -> flatval x = flatval y.
Proof.
  destruct x as [|b s|n|k l|v|f l|o l|v u]; cbn [leaf]; try tauto;
  try (destruct l; [|tauto]); try (destruct o; [|tauto]);
  try (destruct l; [|tauto]); try (destruct k);
  (destruct y as [|b' s'|n'|k' l'|v'|f' l'|o' l'|v' u']; cbn [leaf]; try tauto;
   try (destruct l'; [|tauto]); try (destruct o'; [|tauto]);
   try (destruct l'; [|tauto]); try (destruct k'));
  intros _ _ Ho Ho'; try reflexivity; try (cbn; discriminate).
  - cbn. intros [= E].  f_equal.
    clear -E. assert (forall a, append a "" = a) as Hn by (induction a; cbn; congruence).
    rewrite !Hn in E. exact E.
  - intros E. cbn [flatval]. apply num_text_flat; auto.
    cbn in E. injection E as E.
    assert (forall a, append a "" = a) as Hn by (induction a; cbn; congruence).
    rewrite !Hn in E. exact E.
Qed.

Lemma ordered_injective x : forall y,
  ordered x -> ordered y ->
  injective_on md5 (digest_inputs md5 x ++ digest_inputs md5 y) ->
  digest x = digest y -> flatval x = flatval y.
Proof.
  assert (Hin : forall x, In (digest_input md5 x) (digest_inputs md5 x)).
  { intros z; destruct z; cbn; auto. }
  assert (Hgen : forall n x, (height x <= n)%nat -> forall y,
    ordered x -> ordered y ->
    injective_on md5 (digest_inputs md5 x ++ digest_inputs md5 y) ->
    digest x = digest y -> flatval x = flatval y).
  2: { apply (Hgen (height x) x). lia. }
  clear x. induction n as [|n IHn]; intros x Hh y Ho Ho' Hinj Hd.
  { destruct x; cbn in Hh; lia. }
  rewrite (digest_md5 x Ho), (digest_md5 y Ho') in Hd.
  apply Hinj in Hd; [|apply in_app_iff; auto|apply in_app_iff; auto].
  assert (Hall : forall l, Forall (fun s => exists t, s = md5 t) (map digest l)).
  { intros l. apply Forall_map. apply Forall_forall. intros z _. destruct z; eexists; reflexivity. }
  destruct (leaf_or_kids x Ho) as [Hl|[l Hk]], (leaf_or_kids y Ho') as [Hl'|[l' Hk']].
  - now apply leaf_flat.
  - exfalso. apply leaf_first in Hl. rewrite Hd, (kids_input _ _ Hk') in Hl.
    revert Hl. apply hashlist_first; [|apply Hall].
    apply kids_nonempty in Hk'. destruct l'; [congruence|discriminate].
  - exfalso. apply leaf_first in Hl'. rewrite <- Hd, (kids_input _ _ Hk) in Hl'.
    revert Hl'. apply hashlist_first; [|apply Hall].
    apply kids_nonempty in Hk. destruct l; [congruence|discriminate].
  - rewrite (kids_input _ _ Hk), (kids_input _ _ Hk') in Hd.
    apply hashlist_inj in Hd; auto.
    rewrite (kids_flat _ _ Hk), (kids_flat _ _ Hk'). f_equal.
    assert (Hh' : Forall (fun z => (height z <= n)%nat) l).
    { clear -Hk Hh. assert (Hm : forall (m : list pyval) z, In z m -> (height z <= list_max (map height m))%nat).
      { intros m z Hz. assert (Hle : (list_max (map height m) <= list_max (map height m))%nat) by lia.
        apply list_max_le in Hle. rewrite Forall_forall in Hle. apply Hle. now apply in_map. }
      apply Forall_forall. intros z Hz. destruct Hk as [k l Hl|v|l Hl|v u]; cbn [height] in Hh.
      - specialize (Hm _ _ Hz). lia.
      - destruct Hz as [<-|[]]. lia.
      - rewrite list_max_pair in Hh. apply in_app_iff in Hz.
        rewrite <- (map_map fst height), <- (map_map snd height) in Hh.
        destruct Hz as [Hz|Hz]; specialize (Hm _ _ Hz); lia.
      - destruct Hz as [<-|[<-|[]]]; cbn [height]; lia. }
    pose proof (kids_ordered _ _ Hk Ho) as Hol. pose proof (kids_ordered _ _ Hk' Ho') as Hol'.
    assert (Hinc : forall z, In z l -> incl (digest_inputs md5 z) (digest_inputs md5 x))
      by (intros; eapply kids_inputs; eauto).
    assert (Hinc' : forall z, In z l' -> incl (digest_inputs md5 z) (digest_inputs md5 y))
      by (intros; eapply kids_inputs; eauto).
    clear Hk Hk' Hall Ho Ho' Hh. revert l' Hd Hol' Hinc'.
    induction l as [|z l IHl]; intros [|z' l'] Hd Hol' Hinc'; cbn in Hd; try discriminate; [reflexivity|].
    injection Hd as Hz Hd. inversion Hh'; inversion Hol; inversion Hol'; subst.
    cbn [map]. f_equal.
    + apply IHn; auto. intros s t Hs Ht. apply Hinj.
      * apply in_app_iff in Hs. apply in_app_iff. destruct Hs as [Hs|Hs];
          [left; eapply Hinc; cbn; eauto|right; eapply Hinc'; cbn; eauto].
      * apply in_app_iff in Ht. apply in_app_iff. destruct Ht as [Ht|Ht];
          [left; eapply Hinc; cbn; eauto|right; eapply Hinc'; cbn; eauto].
    + apply IHl; auto; intros; [apply Hinc|apply Hinc']; cbn; auto.
Qed.

Lemma calchash_ordered_injective x y h :
  ordered x -> ordered y ->
  injective_on md5 (digest_inputs md5 x ++ digest_inputs md5 y) ->
  calchash 0 x = Ok h -> calchash 0 y = Ok h -> flatval x = flatval y.
Proof.
  intros Ho Ho' Hi Hx Hy. apply calchash_Ok_digest in Hx, Hy.
  apply ordered_injective; auto. congruence.
Qed.

(* plain dictionaries *)
Lemma dict_injective l l' h :
  (forall s t, In s [join (let s := sorted le2 (map (fun kv => (digest (fst kv), digest (snd kv))) l) in map fst s ++ map snd s);
                     join (let s := sorted le2 (map (fun kv => (digest (fst kv), digest (snd kv))) l') in map fst s ++ map snd s)] ->
               In t [join (let s := sorted le2 (map (fun kv => (digest (fst kv), digest (snd kv))) l) in map fst s ++ map snd s);
                     join (let s := sorted le2 (map (fun kv => (digest (fst kv), digest (snd kv))) l') in map fst s ++ map snd s)] ->
               md5 s = md5 t -> s = t) ->
  l <> [] -> l' <> [] ->
  calchash 0 (PMap false l) = Ok h -> calchash 0 (PMap false l') = Ok h ->
  Permutation (map (fun kv => (digest (fst kv), digest (snd kv))) l)
              (map (fun kv => (digest (fst kv), digest (snd kv))) l').
Proof.
  intros Hi Hl Hl' Hx Hy. apply calchash_Ok_digest in Hx, Hy.
  rewrite digest_dict in Hx, Hy by assumption. rewrite Hx in Hy.
  apply Hi in Hy; cbn [In]; auto. cbv zeta in Hy.
  set (s := sorted le2 (map (fun kv => (digest (fst kv), digest (snd kv))) l)) in *.
  set (s' := sorted le2 (map (fun kv => (digest (fst kv), digest (snd kv))) l')) in *.
  assert (Ps : Permutation s (map (fun kv => (digest (fst kv), digest (snd kv))) l)) by apply sorted_perm.
  assert (Ps' : Permutation s' (map (fun kv => (digest (fst kv), digest (snd kv))) l')) by apply sorted_perm.
  rewrite <- Ps, <- Ps'.
  assert (Hall : forall s l, Permutation s (map (fun kv : pyval * pyval => (digest (fst kv), digest (snd kv))) l) ->
    Forall (fun z => String.length z = 32%nat) (map fst s ++ map snd s)).
  { intros s0 l0 P0. apply Forall_app. split; apply Forall_map; rewrite P0; apply Forall_map;
    apply Forall_forall; intros; apply digest_len. }
  apply (join_inj 32) in Hy; eauto; [|lia].
  assert (Hlen : length s = length s').
  { assert (E : length (map fst s ++ map snd s) = length (map fst s' ++ map snd s')) by now rewrite Hy.
    rewrite !app_length, !map_length in E. lia. }
  assert (E : map fst s = map fst s' /\ map snd s = map snd s').
  { clearbody s s'. clear -Hy Hlen. revert Hy. generalize (map snd s) (map snd s'). revert s' Hlen.
    induction s as [|p s IH]; intros [|p' s'] Hlen t t'; cbn in *; try discriminate; auto.
    intros [= E1 E2]. destruct (IH s' ltac:(lia) _ _ E2) as [E3 E4]. rewrite E1, E3. auto. }
  destruct E as [E1 E2]. rewrite <- (combine_map_fst_snd s), <- (combine_map_fst_snd s'), E1, E2.
  reflexivity.
Qed.
End Depth.

(* ---- refutations ---- *)
Lemma dict_list_collision md5 a b :
  calchash md5 0 (PSeq KList [a; b]) = calchash md5 0 (PMap false [(a, b)]).
Proof.
  cbn [calchash Nat.eqb mapM]. cbn [fst snd].
  destruct (calchash md5 1 a) as [h|e]; cbn [bind]; [|reflexivity].
  destruct (calchash md5 1 b) as [h'|e]; cbn [bind]; reflexivity.
Qed.

Lemma set_list_collision md5 a b :
  calchash md5 0 (PSet false [a; b]) = calchash md5 0 (PSeq KList [a; b]) \/
  calchash md5 0 (PSet false [a; b]) = calchash md5 0 (PSeq KList [b; a]).
Proof.
  cbn [calchash Nat.eqb mapM]. rewrite !calchash_digest by lia. unfold guard.
  destruct (Nat.leb (1 + height a) 100), (Nat.leb (1 + height b) 100); cbn [bind]; auto.
  cbn [sorted insert]. destruct (str_leb (digest md5 a) (digest md5 b)); auto.
Qed.

Definition str_key_dict (swap : bool) : pyval :=
  let a := (PStr true "a", PNum (NInt 1)) in
  let b := (PStr false "a", PNum (NInt 2)) in
  PMap false (if swap then [b; a] else [a; b]).

Lemma str_key_dict_order md5 :
  hexlike md5 ->
  let h := md5 (join [cls "string"; "a"%string]) in
  let h1 := md5 (join [cls "number"; "1"%string]) in
  let h2 := md5 (join [cls "number"; "2"%string]) in
  h1 <> h2 ->
  (md5 (join [h; h; h1; h2]) = md5 (join [h; h; h2; h1]) -> join [h; h; h1; h2] = join [h; h; h2; h1]) ->
  same_content (str_key_dict false) (str_key_dict true) /\
  calchash md5 0 (str_key_dict false) <> calchash md5 0 (str_key_dict true).
Proof.
  intros Hhex h h1 h2 Hne Hinj. split.
  - unfold str_key_dict. eapply sc_dict.
    + repeat constructor.
    + apply perm_swap.
  - assert (E : forall b, calchash md5 0 (str_key_dict b) =
       Ok (md5 (join (if b then [h; h; h2; h1] else [h; h; h1; h2])))).
    { intros b. unfold str_key_dict. destruct b; cbn -[join str_leb append];
      unfold sort2lists; cbn -[join str_leb append]; fold h; rewrite str_leb_refl; reflexivity. }
    rewrite !E. intros [= H]. apply Hinj in H.
    assert (Hl : forall s, String.length (md5 s) = 32%nat) by (intros; apply Hhex).
    apply (join_inj 32) in H; [congruence|lia| |]; repeat constructor; apply Hl.
Qed.

Lemma empty_seq_kinds md5 :
  md5 (cls "list") <> md5 (cls "tuple") ->
  calchash md5 0 (PSeq KList []) <> calchash md5 0 (PSeq KTuple []).
Proof. intros H. cbn. cbn in H. congruence. Qed.

Lemma complex_number md5 :
  md5 (append (cls "number") "1") <> md5 (append (cls "number") "(1+0j)") ->
  calchash md5 0 (PNum (NInt 1)) <> calchash md5 0 (PNum (NComplexInt 1)).
Proof. intros H. cbn. cbn in H. congruence. Qed.

(* A concrete digest with 32 characters, for the examples: the last 32
   characters of the text, shifted away from "<". *)
Fixpoint last32 (s : string) : string :=
  if (String.length s <=? 32)%nat then s else match s with EmptyString => s | String _ s' => last32 s' end.
Definition pad32 (s : string) : string :=
  String.substring 0 31 (append s "0000000000000000000000000000000").
Definition toy_md5 (s : string) : string := String "h" (pad32 (last32 s)).

Lemma substring_len s n : (n <= String.length s)%nat -> String.length (String.substring 0 n s) = n.
Proof.
  revert n; induction s as [|a s IH]; intros [|n] H; cbn in *; try lia.
  rewrite IH; lia.
Qed.

Lemma toy_hexlike : hexlike toy_md5.
Proof.
  intros s. split; [|discriminate]. unfold toy_md5, pad32. cbn [String.length]. f_equal.
  apply substring_len. rewrite append_length. cbn. lia.
Qed.

Definition ex_dict (swap : bool) : pyval :=
  let a := (PStr false "b", PSet false [PNum (NInt 1); PNum (NInt 2)]) in
  let b := (PStr false "a", PSeq KList [PNone; PNum (NBool true)]) in
  let c := (PStr false "b", PSet false [PNum (NInt 2); PNum (NInt 1)]) in
  let d := (PStr true "a", PSeq KTuple [PNone; PNum (NFloatInt 1)]) in
  PMap false (if swap then [d; c] else [a; b]).

Lemma ex_dict_same : same_content (ex_dict false) (ex_dict true).
Proof.
  unfold ex_dict. cbv zeta. apply sc_dict with
    (m := [(PStr false "b", PSet false [PNum (NInt 2); PNum (NInt 1)]);
           (PStr true "a", PSeq KTuple [PNone; PNum (NFloatInt 1)])]).
  - constructor; [|constructor; [|constructor]]; cbn [fst snd]; split.
    + apply sc_str with (b' := false).
    + apply sc_set with (f' := false) (m := [PNum (NInt 1); PNum (NInt 2)]);
        [discriminate|repeat constructor|apply perm_swap].
    + apply sc_str with (b' := true).
    + apply sc_seq with (k' := KTuple); [discriminate|]. repeat constructor.
      apply sc_num with 1; reflexivity.
  - apply perm_swap.
Qed.

Lemma ex_dict_keys : key_digests_differ toy_md5 (ex_dict false).
Proof.
  cbn [ex_dict key_digests_differ map fst snd fold_right]. repeat split; auto.
  intros _. constructor; [|constructor; [intros []|constructor]].
  intros [H|[]]. vm_compute in H. discriminate.
Qed.

Definition ex_ordered1 : pyval := PSeq KList [PStr false "x"; PNum (NInt 3)].
Definition ex_ordered2 : pyval := PMap true [(PStr true "x", PNum (NFloatInt 3))].

Lemma ex_ordered_inj :
  injective_on toy_md5 (digest_inputs toy_md5 ex_ordered1 ++ digest_inputs toy_md5 ex_ordered2).
Proof.
  intros s t Hs Ht. vm_compute in Hs, Ht.
  repeat (destruct Hs as [<-|Hs]; [|]); try (destruct Hs);
  repeat (destruct Ht as [<-|Ht]; [|]); try (destruct Ht);
  vm_compute; intros H; try reflexivity; discriminate.
Qed.
