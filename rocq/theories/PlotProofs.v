(* Proofs about plot groups. *)
From Verif Require Import TextProofs ProcProofs PlotSpec.

Lemma eqb_sym a b : chars_eqb a b = chars_eqb b a.
Proof. apply eq_true_iff_eq. rewrite !chars_eqb_spec. split; congruence. Qed.
Lemma eqb_neq a b : a <> b -> chars_eqb a b = false.
Proof. intros N. apply not_true_iff_false. rewrite chars_eqb_spec. exact N. Qed.
Lemma lookup_del_other {A} k k' (l : list (chars * A)) : k' <> k -> lookup k' (del k l) = lookup k' l.
Proof.
  intros N. induction l as [|[k1 v1] l IH]; [reflexivity|]. cbn [del lookup]. destruct (chars_eqb k k1) eqn:E.
  - apply chars_eqb_spec in E as <-. now rewrite eqb_neq.
  - cbn [lookup]. now rewrite IH.
Qed.
Lemma lookup_insert_other {A} k k' (v : A) l : k' <> k -> lookup k' (insert k v l) = lookup k' l.
Proof.
  intros N. induction l as [|[k1 v1] l IH]; cbn [insert lookup].
  - now rewrite eqb_neq.
  - destruct (chars_ltb k k1); cbn [lookup]; [now rewrite eqb_neq|now rewrite IH].
Qed.
Lemma lookup_insert_same {A} k (v : A) l : lookup k l = None -> lookup k (insert k v l) = Some v.
Proof.
  induction l as [|[k1 v1] l IH]; cbn [insert lookup]; [now rewrite chars_eqb_refl|].
  destruct (chars_eqb k k1) eqn:E; [discriminate|]. intros H. destruct (chars_ltb k k1); cbn [lookup].
  - now rewrite chars_eqb_refl.
  - rewrite E. now apply IH.
Qed.
Lemma lookup_keys {A} k (l : list (chars * A)) : lookup k l = None <-> ~ In k (map fst l).
Proof.
  rewrite lookup_none. split.
  - intros H I. apply in_map_iff in I as ([k' v] & <- & I). now apply (H v).
  - intros H v I. apply H. change k with (fst (k, v)). now apply in_map.
Qed.
Lemma del_keys {A} k (l : list (chars * A)) x : In x (map fst (del k l)) -> In x (map fst l).
Proof.
  induction l as [|[k1 v1] l IH]; [auto|]. cbn [del]. destruct (chars_eqb k k1); cbn; [auto|]. intros [H|H]; auto.
Qed.
Lemma del_nodup {A} k (l : list (chars * A)) : NoDup (map fst l) -> NoDup (map fst (del k l)).
Proof.
  induction l as [|[k1 v1] l IH]; [auto|]. cbn [del map fst]. intros H. inversion H as [|? ? N D]; subst.
  destruct (chars_eqb k k1); [exact D|]. cbn. constructor; [|now apply IH]. intros I. now apply del_keys in I.
Qed.
Lemma lookup_del_same {A} k (l : list (chars * A)) : NoDup (map fst l) -> lookup k (del k l) = None.
Proof.
  induction l as [|[k1 v1] l IH]; [reflexivity|]. cbn [del map fst]. intros H. inversion H as [|? ? N D]; subst.
  destruct (chars_eqb k k1) eqn:E.
  - apply chars_eqb_spec in E as <-. now apply lookup_keys.
  - cbn [lookup]. rewrite E. now apply IH.
Qed.
Lemma insert_keys {A} k (v : A) l : Permutation (map fst (insert k v l)) (k :: map fst l).
Proof.
  induction l as [|[k1 v1] l IH]; [reflexivity|]. cbn [insert]. destruct (chars_ltb k k1); [reflexivity|].
  cbn [map fst]. rewrite IH. apply perm_swap.
Qed.
Lemma insert_nodup {A} k (v : A) l : NoDup (map fst l) -> lookup k l = None -> NoDup (map fst (insert k v l)).
Proof.
  intros D N. apply (Permutation_NoDup (l := k :: map fst l)); [symmetry; apply insert_keys|].
  constructor; [now apply lookup_keys|exact D].
Qed.

(* ---- creating ---- *)
Lemma create_spec d name src l r : NoDup (map fst (x_mem d)) -> create d name src = (l, r) ->
  NoDup (map fst l) /\ (forall n, n <> name -> lookup n l = lookup n (x_mem d)) /\
  (r = Ok tt -> src <> LinkTo None -> 
     exists s, (lookup name l = Some (Dset s) \/ lookup name l = Some (Link (Some s))) /\
       match src with
       | Create (Some s') _ => s = s'
       | LinkTo (Some s') => s = s'
       | _ => read_shape d name = Ok s
       end).
Proof.
  intros D H. unfold create in H. destruct src as [s m|t].
  - assert (Mk : forall l0 r0 l1, NoDup (map fst l0) -> (forall n, n <> name -> lookup n l0 = lookup n (x_mem d)) ->
      match lookup name l0, s with
      | Some _, _ => (l0, Err ValueError)
      | None, Some s => (insert name (Dset s) l0, Ok tt)
      | None, None => (l0, Err TypeError)
      end = (l1, r0) ->
      NoDup (map fst l1) /\ (forall n, n <> name -> lookup n l1 = lookup n (x_mem d)) /\
      (r0 = Ok tt -> Create s m <> LinkTo None ->
         exists s0, (lookup name l1 = Some (Dset s0) \/ lookup name l1 = Some (Link (Some s0))) /\
           match s with Some s' => s0 = s' | None => read_shape d name = Ok s0 end)).
    { intros l0 r0 l1 D0 O0 H0. destruct (lookup name l0) as [x|] eqn:L; [|destruct s as [s|]].
      - injection H0 as <- <-. split; [exact D0|]. split; [exact O0|discriminate].
      - injection H0 as <- <-. split; [now apply insert_nodup|]. split.
        + intros n N. rewrite lookup_insert_other by exact N. now apply O0.
        + intros _ _. exists s. split; [left; now apply lookup_insert_same|reflexivity].
      - injection H0 as <- <-. split; [exact D0|]. split; [exact O0|discriminate]. }
    assert (Same : NoDup (map fst (x_mem d)) /\ (forall n, n <> name -> lookup n (x_mem d) = lookup n (x_mem d)) /\
             forall x, (Err x : result unit) = Ok tt -> Create s m <> LinkTo None ->
         exists s0, (lookup name (x_mem d) = Some (Dset s0) \/ lookup name (x_mem d) = Some (Link (Some s0))) /\
           match s with Some s' => s0 = s' | None => read_shape d name = Ok s0 end).
    { split; [exact D|]. split; [reflexivity|discriminate]. }
    destruct Same as (S1 & S2 & S3).
    assert (Dl : forall n, n <> name -> lookup n (del name (x_mem d)) = lookup n (x_mem d)) by (intros; now apply lookup_del_other).
    assert (Dn := del_nodup name _ D).
    cbv zeta in H. destruct (lookup name (x_mem d)) as [x|] eqn:L.
    + destruct x as [sh|[sh|]|em].
      * destruct m; [| |injection H as <- <-; (split; [exact S1|split; [exact S2|discriminate]])].
        -- destruct s as [s|]; injection H as <- <-; [(split; [exact S1|split; [exact S2|discriminate]])|].
           split; [exact D|]. split; [reflexivity|]. intros _ _. exists sh. split; [now left|]. unfold read_shape. now rewrite L.
        -- destruct s as [s|]; [now apply (Mk _ _ _ Dn Dl H)|injection H as <- <-; (split; [exact S1|split; [exact S2|discriminate]])].
      * destruct m; [| |injection H as <- <-; (split; [exact S1|split; [exact S2|discriminate]])].
        -- destruct s as [s|]; injection H as <- <-; [(split; [exact S1|split; [exact S2|discriminate]])|].
           split; [exact D|]. split; [reflexivity|]. intros _ _. exists sh. split; [now right|]. unfold read_shape. now rewrite L.
        -- destruct s as [s|]; [now apply (Mk _ _ _ Dn Dl H)|injection H as <- <-; (split; [exact S1|split; [exact S2|discriminate]])].
      * apply (Mk (x_mem d) _ _ D S2). rewrite L. exact H.
      * destruct m; [| |injection H as <- <-; (split; [exact S1|split; [exact S2|discriminate]])].
        -- destruct s as [s|]; injection H as <- <-; (split; [exact S1|split; [exact S2|discriminate]]).
        -- destruct s as [s|]; [injection H as <- <-; (split; [exact S1|split; [exact S2|discriminate]])|now apply (Mk _ _ _ Dn Dl H)].
    + apply (Mk (x_mem d) _ _ D S2). rewrite L. exact H.
  - destruct (lookup name (x_mem d)) eqn:L; injection H as <- <-.
    + split; [exact D|]. split; [reflexivity|discriminate].
    + split; [now apply insert_nodup|]. split; [intros n N; now apply lookup_insert_other|].
      intros _ T. destruct t as [s|]; [|congruence]. exists s. split; [right; now apply lookup_insert_same|reflexivity].
Qed.
Lemma there_ext d d' n s : lookup n (x_mem d') = lookup n (x_mem d) -> there d n s -> there d' n s.
Proof. unfold there. now intros ->. Qed.

Lemma add_spec d name src d' r : consistent d -> add_signal d name src = (d', r) ->
  ~ In name (listed d) -> src <> LinkTo None ->
  consistent d' /\
  match r with
  | Ok _ => x_signal d' = Some name /\ listed d' = name :: auxs d ++ sigs d
  | Err _ => listed d' = listed d /\ x_signal d' = x_signal d
  end /\
  (forall n s, In n (listed d) -> (there d' n s <-> there d n s)).
Proof.
  intros (C1 & C2 & C3 & C4 & C5) H N T. unfold add_signal in H.
  destruct (check_shape d name src) as [[]|x] eqn:K.
  2: { injection H as <- <-. split; [exact (conj C1 (conj C2 (conj C3 (conj C4 C5))))|]. split; [now split|]. reflexivity. }
  destruct (create d name src) as [l q] eqn:Cr. destruct (create_spec d name src l q C4 Cr) as (A1 & A2 & A3).
  assert (Ot : forall n, In n (listed d) -> lookup n l = lookup n (x_mem d)) by (intros n I; apply A2; intros ->; contradiction).
  destruct q as [[]|x]; injection H as <- <-.
  - destruct (A3 eq_refl T) as (s & Hs & _).
    assert (X : (match auxs d ++ sigs d with [] => x_aux d | _ => Some (auxs d ++ sigs d) end) =
                match x_signal d with None => None | Some _ => Some (auxs d ++ sigs d) end).
    { unfold sigs. destruct (x_signal d) as [n0|] eqn:E.
      - destruct (auxs d); reflexivity.
      - rewrite (C1 eq_refl). unfold auxs. now rewrite (C1 eq_refl). }
    rewrite X.
    assert (Li : listed (mkData l (Some name) (match x_signal d with None => None | Some _ => Some (auxs d ++ sigs d) end) (x_axes d))
                 = name :: auxs d ++ sigs d).
    { unfold listed, sigs, auxs. cbn [x_signal x_aux app]. f_equal. destruct (x_signal d) as [n0|] eqn:E; [reflexivity|].
      now rewrite (C1 eq_refl). }
    split; [|split; [now split|]].
    + split; [discriminate|]. split.
      { cbn [x_aux]. destruct (x_signal d) eqn:E; [|discriminate]. unfold sigs. rewrite E. intros [= Q]. now destruct (auxs d). }
      split; [rewrite Li; constructor|].
      { intros I. apply N. unfold listed. apply in_app_iff. apply in_app_iff in I. tauto. }
      { apply (Permutation_NoDup (l := listed d)); [apply Permutation_app_comm|exact C3]. }
      split; [exact A1|]. intros n I. rewrite Li in I. destruct I as [<-|I]; [now exists s|].
      assert (J : In n (listed d)) by (apply in_app_iff; apply in_app_iff in I; tauto).
      destruct (C5 n J) as (s' & Q). exists s'. apply (there_ext d); [now apply Ot|exact Q].
    + intros n s' I. split; apply there_ext; [symmetry|]; now apply Ot.
  - split; [|split; [now split|]].
    + split; [exact C1|]. split; [exact C2|]. split; [exact C3|]. split; [exact A1|].
      intros n I. change (In n (listed d)) in I. destruct (C5 n I) as (s' & Q). exists s'. apply (there_ext d); [now apply Ot|exact Q].
    + intros n s' I. split; apply there_ext; [symmetry|]; now apply Ot.
Qed.

(* the dimensions agree *)
Lemma zlist_eqb_spec a b : zlist_eqb a b = true <-> a = b.
Proof.
  revert b. induction a as [|x a IH]; intros [|y b]; cbn; split; try congruence.
  - intros H. apply andb_prop in H as [A B]. apply Z.eqb_eq in A as ->. now apply IH in B as ->.
  - intros [= -> ->]. rewrite Z.eqb_refl. now apply IH.
Qed.
Lemma there_read d n s : there d n s <-> read_shape d n = Ok s.
Proof.
  unfold there, read_shape. destruct (lookup n (x_mem d)) as [[s0|[s0|]|b]|]; split; intros H;
    try (destruct H as [H|H]; congruence); try congruence; (left + right); congruence.
Qed.
Lemma check_ok d name src s0 : check_shape d name src = Ok tt -> x_axes d = [] ->
  data_shape d = Ok s0 -> s0 <> [] ->
  match src with
  | Create (Some s) _ => s = s0
  | LinkTo (Some s) => s = s0
  | LinkTo None => False
  | Create None _ => read_shape d name = Ok s0
  end.
Proof.
  unfold check_shape, axes_shape. intros H A E N. rewrite A in H. cbn [axes_sizes bind] in H. rewrite E in H. cbn [bind] in H.
  destruct s0 as [|z s0]; [congruence|].
  destruct src as [[s|] m|[s|]]; cbn [bind] in H; try discriminate.
  - destruct (zlist_eqb s (z :: s0)) eqn:Q; [|discriminate]. now apply zlist_eqb_spec.
  - destruct (read_shape d name) as [s|]; cbn [bind] in H; [|discriminate].
    destruct (zlist_eqb s (z :: s0)) eqn:Q; [|discriminate]. apply zlist_eqb_spec in Q as ->. reflexivity.
  - destruct (zlist_eqb s (z :: s0)) eqn:Q; [|discriminate]. now apply zlist_eqb_spec.
Qed.
Lemma add_shape d name src d' s0 : consistent d -> add_signal d name src = (d', Ok tt) ->
  ~ In name (listed d) -> src <> LinkTo None -> x_axes d = [] -> s0 <> [] -> listed d <> [] ->
  (forall n, In n (listed d) -> there d n s0) -> forall n, In n (listed d') -> there d' n s0.
Proof.
  intros C H N T A Nz Ne All. pose proof (add_spec d name src d' _ C H N T) as (C' & (Si & Li) & Th).
  pose proof C as (C1 & C2 & C3 & C4 & C5).
  unfold add_signal in H. destruct (check_shape d name src) as [[]|x] eqn:K; [|discriminate].
  destruct (create d name src) as [l q] eqn:Cr. destruct (create_spec d name src l q C4 Cr) as (A1 & A2 & A3).
  destruct q as [[]|x]; [|discriminate]. injection H as H. destruct (A3 eq_refl T) as (s & Hs & Hm).
  assert (Ds : data_shape d = Ok s0).
  { unfold data_shape. destruct (x_signal d) as [n0|] eqn:E.
    - apply there_read, All. unfold listed, sigs. rewrite E. now left.
    - exfalso. apply Ne. unfold listed, sigs, auxs. now rewrite E, (C1 eq_refl). }
  pose proof (check_ok d name src s0 K A Ds Nz) as Q.
  intros n I. rewrite Li in I. destruct I as [<-|I].
  - assert (s = s0) as -> by (destruct src as [[sh|] m|[sh|]]; congruence). subst d'. exact Hs.
  - assert (J : In n (listed d)) by (apply in_app_iff; apply in_app_iff in I; tauto). apply Th; [exact J|now apply All].
Qed.

(* ---- removing ---- *)
Lemma filter_nodup {A} (f : A -> bool) l : NoDup l -> NoDup (filter f l).
Proof. apply NoDup_filter. Qed.
Lemma in_without n m l : In n (filter (fun s => negb (chars_eqb s m)) l) <-> In n l /\ n <> m.
Proof.
  rewrite filter_In. rewrite negb_true_iff, <- not_true_iff_false, chars_eqb_spec. reflexivity.
Qed.
Lemma without_none m l : ~ In m l -> filter (fun s => negb (chars_eqb s m)) l = l.
Proof.
  induction l as [|x l IH]; [reflexivity|]. cbn. intros N. rewrite eqb_neq by (intros ->; apply N; now left). cbn.
  f_equal. apply IH. intros I. apply N. now right.
Qed.
Definition keeps (d : nxdata) (l : list (chars * mem)) (name : chars) : Prop :=
  forall n, n <> name -> lookup n l = lookup n (x_mem d).
Lemma remove_spec d name d' r : consistent d -> remove_signal d name = (d', r) -> listed d <> [name] ->
  consistent d' /\
  match r with
  | Ok _ => Permutation (listed d') (filter (fun s => negb (chars_eqb s name)) (listed d)) /\ lookup name (x_mem d') = None /\
            (x_signal d <> Some name -> x_signal d' = x_signal d) /\
            (x_signal d = Some name -> exists a, auxs d = auxs d' ++ [a] /\ x_signal d' = Some a)
  | Err _ => d' = d
  end /\
  (forall n s, n <> name -> (there d' n s <-> there d n s)).
Proof.
  intros C H Only. pose proof C as (C1 & C2 & C3 & C4 & C5). unfold remove_signal in H.
  destruct (match lookup name (x_mem d) with Some (Grp false) => true | _ => false end) eqn:G.
  { destruct (lookup name (x_mem d)) as [[| |[|]]|]; try discriminate G. injection H as <- <-.
    split; [exact C|]. split; reflexivity. }
  assert (H' : match x_aux d with
      | None => (set_mem d (del name (x_mem d)), Ok tt)
      | Some aux => match x_signal d with
          | None => (mkData (del name (x_mem d)) None None (x_axes d), Err AttributeError)
          | Some n => if chars_eqb n name then
                match aux with
                | [] => (mkData (del name (x_mem d)) (x_signal d) None (x_axes d), Err IndexError)
                | _ => (mkData (del name (x_mem d)) (Some (last aux [])) (match removelast aux with [] => None | r => Some r end) (x_axes d), Ok tt)
                end
              else (mkData (del name (x_mem d)) (x_signal d)
                     (match filter (fun s => negb (chars_eqb s name)) aux with [] => None | _ => Some (filter (fun s => negb (chars_eqb s name)) aux) end) (x_axes d), Ok tt)
          end
      end = (d', r)).
  { destruct (lookup name (x_mem d)) as [[| |[|]]|]; try discriminate G; exact H. }
  clear H G. pose proof (del_nodup name _ C4) as Dn. pose proof (lookup_del_same name _ C4) as Dl.
  assert (Ke : forall n, n <> name -> lookup n (del name (x_mem d)) = lookup n (x_mem d)) by (intros n N; now apply lookup_del_other).
  assert (Th : forall d0, x_mem d0 = del name (x_mem d) -> forall n s, n <> name -> (there d0 n s <-> there d n s)).
  { intros d0 E n s N. unfold there. rewrite E, Ke by exact N. reflexivity. }
  destruct (x_signal d) as [n0|] eqn:S.
  - destruct (x_aux d) as [aux|] eqn:X.
    + assert (L : listed d = n0 :: aux) by (unfold listed, sigs, auxs; now rewrite S, X).
      destruct (chars_eqb n0 name) eqn:E.
      * apply chars_eqb_spec in E as ->. destruct aux as [|a0 aux0]; [congruence|]. set (aux := a0 :: aux0) in *.
        assert (Ne : aux <> []) by discriminate. clearbody aux. clear a0 aux0.
        assert (H2 : (mkData (del name (x_mem d)) (Some (last aux [])) (match removelast aux with [] => None | r => Some r end) (x_axes d), Ok tt) = (d', r)).
        { destruct aux; [congruence|exact H']. }
        clear H'. injection H2 as H2 <-.
        pose proof (@app_removelast_last chars aux [] Ne) as Sp. set (a := last aux []) in *. set (rl := removelast aux) in *. clearbody a rl.
        assert (La : listed d' = a :: rl).
        { subst d'. unfold listed, sigs, auxs. cbn [x_signal x_aux app]. destruct rl; reflexivity. }
        assert (P : Permutation (a :: rl) aux) by (rewrite Sp; apply Permutation_cons_append).
        rewrite L in C3. inversion C3 as [|? ? N3 D3]; subst.
        split; [|split].
        -- split; [discriminate|]. split; [cbn [x_aux]; destruct rl; discriminate|]. split; [rewrite La; now apply (Permutation_NoDup (Permutation_sym P))|].
           split; [exact Dn|]. intros n I. rewrite La in I. apply (Permutation_in _ P) in I.
           destruct (C5 n) as (s & Q); [rewrite L; now right|]. exists s. apply Th; [reflexivity| |exact Q]. intros ->. contradiction.
        -- split; [|split; [exact Dl|split]].
           ++ rewrite La, L. cbn [filter]. rewrite chars_eqb_refl. cbn [negb]. rewrite without_none by exact N3. exact P.
           ++ congruence.
           ++ intros _. exists a. split; [|reflexivity]. unfold auxs. rewrite X. cbn [x_aux]. now destruct rl.
        -- now apply Th.
      * assert (N0 : n0 <> name) by (intros ->; now rewrite chars_eqb_refl in E).
        set (r0 := filter (fun s => negb (chars_eqb s name)) aux) in *. injection H' as H' <-.
        assert (La : listed d' = n0 :: r0).
        { subst d'. unfold listed, sigs, auxs. cbn [x_signal x_aux app]. destruct r0; reflexivity. }
        assert (Lf : filter (fun s => negb (chars_eqb s name)) (listed d) = n0 :: r0).
        { rewrite L. cbn [filter]. now rewrite E. }
        split; [|split].
        -- split; [subst d'; discriminate|]. split; [subst d'; cbn [x_aux]; destruct r0; discriminate|].
           split; [rewrite La, <- Lf; now apply NoDup_filter|]. split; [subst d'; exact Dn|].
           intros n I. rewrite La, <- Lf in I. apply in_without in I as [I J]. destruct (C5 n I) as (s & Q). exists s.
           apply Th; [now subst d'|exact J|exact Q].
        -- rewrite La, Lf. split; [reflexivity|]. subst d'. split; [exact Dl|]. split; [reflexivity|congruence].
        -- apply Th. now subst d'.
    + injection H' as <- <-. assert (L : listed d = [n0]) by (unfold listed, sigs, auxs; now rewrite S, X).
      assert (N0 : n0 <> name) by (intros ->; now apply Only).
      assert (La : listed (set_mem d (del name (x_mem d))) = [n0]) by exact L.
      split; [|split; [|now apply Th]].
      * split; [cbn; rewrite S; discriminate|]. split; [cbn; rewrite X; discriminate|]. split; [rewrite La; constructor; [intros []|constructor]|].
        split; [exact Dn|]. intros n I. rewrite La in I. destruct I as [<-|[]]. destruct (C5 n0) as (s & Q); [rewrite L; now left|].
        exists s. now apply Th.
      * rewrite La, L. cbn [filter]. rewrite eqb_neq by exact N0. split; [reflexivity|]. split; [exact Dl|]. cbn [set_mem x_signal].
        rewrite S. split; [reflexivity|congruence].
  - rewrite (C1 eq_refl) in H'. injection H' as <- <-. assert (L : listed d = []) by (unfold listed, sigs, auxs; now rewrite S, (C1 eq_refl)).
    assert (La : listed (set_mem d (del name (x_mem d))) = []) by exact L.
    split; [|split; [|now apply Th]].
    + split; [intros _; exact (C1 eq_refl)|]. split; [exact C2|]. split; [rewrite La; constructor|]. split; [exact Dn|]. intros n I. rewrite La in I. destruct I.
    + rewrite La, L. split; [reflexivity|]. split; [exact Dl|]. cbn [set_mem x_signal]. rewrite S. split; [reflexivity|congruence].
Qed.

(* ---- default ---- *)
Lemma perm_pull n l : In n l -> NoDup l -> Permutation (n :: filter (fun s => negb (chars_eqb s n)) l) l.
Proof.
  induction l as [|x l IH]; intros I D; [destruct I|]. inversion D as [|? ? N D']; subst. cbn [filter].
  destruct (chars_eqb x n) eqn:E.
  - apply chars_eqb_spec in E as ->. cbn [negb]. now rewrite without_none.
  - cbn [negb]. destruct I as [->|I]; [now rewrite chars_eqb_refl in E|]. rewrite perm_swap. constructor. now apply IH.
Qed.
Lemma default_spec d name d' b : consistent d -> default_signal d name = (d', b) ->
  consistent d' /\ Permutation (listed d') (listed d) /\ x_mem d' = x_mem d /\
  (b = true <-> In name (listed d)) /\ x_signal d' = (if b then Some name else x_signal d).
Proof.
  intros C H. pose proof C as (C1 & C2 & C3 & C4 & C5). unfold default_signal in H.
  destruct (x_signal d) as [n0|] eqn:S.
  - destruct (chars_eqb name n0) eqn:E.
    + apply chars_eqb_spec in E as <-. injection H as <- <-. split; [exact C|]. split; [reflexivity|]. split; [reflexivity|].
      split; [|exact S]. split; [|reflexivity]. intros _. unfold listed, sigs. rewrite S. now left.
    + change (sigs d ++ auxs d) with (listed d) in H. destruct (existsb (chars_eqb name) (listed d)) eqn:X.
      * apply existsb_exists in X as (n & I & Q). apply chars_eqb_spec in Q as <-.
        pose proof (perm_pull name (listed d) I C3) as P.
        set (aux := filter (fun s => negb (chars_eqb s name)) (listed d)) in *. injection H as <- <-.
        assert (Na : aux <> []).
        { assert (J : In n0 aux) by (apply in_without; split; [unfold listed, sigs; rewrite S; now left|]; intros ->; now rewrite chars_eqb_refl in E).
          intros Q. rewrite Q in J. destruct J. }
        assert (La : listed (mkData (x_mem d) (Some name) (match aux with [] => x_aux d | _ => Some aux end) (x_axes d)) = name :: aux).
        { unfold listed, sigs, auxs. cbn. destruct aux; [congruence|reflexivity]. }
        split; [|rewrite La; split; [exact P|split; [reflexivity|split; [now split|reflexivity]]]].
        split; [discriminate|]. split; [cbn; destruct aux; congruence|]. split; [rewrite La; now apply (Permutation_NoDup (Permutation_sym P))|].
        split; [exact C4|]. intros n J. rewrite La in J. apply (Permutation_in _ P) in J. exact (C5 n J).
      * injection H as <- <-. split; [exact C|]. split; [reflexivity|]. split; [reflexivity|]. split; [|exact S]. split; [discriminate|].
        intros I. exfalso. assert (Y : existsb (chars_eqb name) (listed d) = true); [|congruence].
        apply existsb_exists. exists name. split; [exact I|apply chars_eqb_refl].
  - assert (L : listed d = []) by (unfold listed, sigs, auxs; now rewrite S, (C1 eq_refl)).
    change (sigs d ++ auxs d) with (listed d) in H. rewrite L in H. cbn in H. injection H as <- <-.
    split; [exact C|]. split; [reflexivity|]. split; [reflexivity|]. split; [|exact S]. rewrite L. split; [discriminate|intros []].
Qed.

(* ---- sorting ---- *)
Lemma put_in_perm n l : Permutation (put_in n l) (n :: l).
Proof. induction l as [|m l IH]; [reflexivity|]. cbn. destruct (chars_ltb m n); [rewrite IH; apply perm_swap|reflexivity]. Qed.
Lemma sort_perm l : Permutation (sort_names l) l.
Proof. induction l as [|n l IH]; [reflexivity|]. cbn [sort_names fold_right]. rewrite put_in_perm. now constructor. Qed.
Lemma le_trans a b c : le_name a b -> le_name b c -> le_name a c.
Proof.
  unfold le_name. intros A B. destruct (chars_ltb c a) eqn:E; [|reflexivity].
  destruct (ltb_total b a A) as [->|Q]; [congruence|]. pose proof (ltb_trans _ _ _ E Q). congruence.
Qed.
Lemma ltb_le a b : chars_ltb a b = true -> le_name a b.
Proof. intros H. unfold le_name. destruct (chars_ltb b a) eqn:E; [|reflexivity]. pose proof (ltb_trans _ _ _ H E) as Q. now rewrite ltb_irrefl in Q. Qed.
Lemma put_in_sorted n l : StronglySorted le_name l -> StronglySorted le_name (put_in n l).
Proof.
  induction 1 as [|m l S IH F]; [repeat constructor|]. cbn. destruct (chars_ltb m n) eqn:E.
  - constructor; [exact IH|]. apply Forall_forall. intros x I. apply (Permutation_in _ (put_in_perm n l)) in I as [<-|I].
    + now apply ltb_le.
    + rewrite Forall_forall in F. now apply F.
  - constructor; [now constructor|]. constructor; [exact E|]. rewrite Forall_forall in *. intros x I.
    apply (le_trans _ m); [exact E|now apply F].
Qed.
Lemma sort_sorted l : StronglySorted le_name (sort_names l).
Proof. induction l as [|n l IH]; [constructor|]. cbn [sort_names fold_right]. now apply put_in_sorted. Qed.
Lemma names_eqb_spec a b : names_eqb a b = true <-> a = b.
Proof.
  revert b. induction a as [|x a IH]; intros [|y b]; cbn; split; try congruence.
  - intros H. apply andb_prop in H as [A B]. apply chars_eqb_spec in A as ->. now apply IH in B as ->.
  - intros [= -> ->]. rewrite chars_eqb_refl. now apply IH.
Qed.
Lemma sorted_unique l l' : StronglySorted le_name l -> StronglySorted le_name l' -> Permutation l l' -> l = l'.
Proof.
  revert l'. induction l as [|x l IH]; intros l' S S' P.
  - symmetry. now apply Permutation_nil.
  - destruct l' as [|y l']; [symmetry in P; now apply Permutation_nil in P|].
    inversion S as [|? ? S1 F1]; subst. inversion S' as [|? ? S2 F2]; subst. rewrite Forall_forall in F1, F2.
    assert (E : x = y).
    { assert (I : In x (y :: l')) by (apply (Permutation_in _ P); now left).
      assert (J : In y (x :: l)) by (apply (Permutation_in _ (Permutation_sym P)); now left).
      destruct I as [I|I]; [now symmetry|]. destruct J as [J|J]; [exact J|].
      pose proof (F1 _ J) as A. pose proof (F2 _ I) as B. unfold le_name in A, B.
      destruct (ltb_total _ _ A) as [Q|Q]; [now symmetry|congruence]. }
    subst y. f_equal. apply IH; [exact S1|exact S2|]. now apply Permutation_cons_inv in P.
Qed.
Lemma same_sorted a b : names_eqb (sort_names a) (sort_names b) = true <-> Permutation a b.
Proof.
  rewrite names_eqb_spec. split; intros H.
  - rewrite <- (sort_perm a), H. apply sort_perm.
  - apply sorted_unique; try apply sort_sorted. now rewrite !sort_perm.
Qed.
Lemma sort_spec d other d' r : consistent d -> sort_signals d other = (d', r) ->
  consistent d' /\ Permutation (listed d') (listed d) /\ x_mem d' = x_mem d /\
  match x_signal d, other with
  | None, _ => r = Err AttributeError /\ d' = d
  | Some _, None => r = Ok tt /\ StronglySorted le_name (listed d')
  | Some _, Some o => r = Ok tt /\ (Permutation o (listed d) -> listed d' = o) /\ (~ Permutation o (listed d) -> d' = d)
  end.
Proof.
  intros C H. pose proof C as (C1 & C2 & C3 & C4 & C5). unfold sort_signals in H.
  destruct (x_signal d) as [n0|] eqn:S.
  2: { injection H as <- <-. split; [exact C|]. split; [reflexivity|]. split; [reflexivity|]. split; reflexivity. }
  assert (L : listed d = n0 :: auxs d) by (unfold listed, sigs; now rewrite S). rewrite <- L in H.
  assert (Set' : forall l d1 r1, Permutation l (listed d) ->
    match l with
    | [] => (d, Err IndexError)
    | s :: aux => (mkData (x_mem d) (Some s) (match aux with [] => x_aux d | _ => Some aux end) (x_axes d), Ok tt)
    end = (d1, r1) -> consistent d1 /\ listed d1 = l /\ x_mem d1 = x_mem d /\ r1 = Ok tt).
  { intros l d1 r1 P Q. destruct l as [|s aux]; [exfalso; apply Permutation_nil in P; congruence|]. injection Q as <- <-.
    assert (X : match aux with [] => x_aux d | _ => Some aux end = match aux with [] => None | _ => Some aux end).
    { destruct aux as [|a aux]; [|reflexivity]. destruct (x_aux d) as [ax|] eqn:X; [|reflexivity]. exfalso.
      apply Permutation_length in P. rewrite L in P. unfold auxs in P. rewrite X in P. destruct ax; [congruence|cbn in P; lia]. }
    rewrite X. assert (Li : listed (mkData (x_mem d) (Some s) match aux with [] => None | _ => Some aux end (x_axes d)) = s :: aux).
    { unfold listed, sigs, auxs. cbn. now destruct aux. }
    split; [|split; [exact Li|split; reflexivity]]. split; [discriminate|]. split; [cbn; destruct aux; discriminate|].
    split; [rewrite Li; now apply (Permutation_NoDup (Permutation_sym P))|]. split; [exact C4|].
    intros n I. rewrite Li in I. apply (Permutation_in _ P) in I. exact (C5 n I). }
  cbv zeta in H. destruct other as [o|].
  - destruct (names_eqb (sort_names o) (sort_names (listed d))) eqn:E.
    + apply same_sorted in E. destruct (Set' _ _ _ E H) as (A & B & D & F). rewrite B. split; [exact A|]. split; [exact E|]. split; [exact D|].
      split; [exact F|]. split; [reflexivity|]. intros Q. contradiction.
    + injection H as <- <-. split; [exact C|]. split; [reflexivity|]. split; [reflexivity|]. split; [reflexivity|].
      split; [|reflexivity]. intros Q. apply same_sorted in Q. congruence.
  - destruct (Set' _ _ _ (sort_perm (listed d)) H) as (A & B & D & F). rewrite B. split; [exact A|]. split; [apply sort_perm|].
    split; [exact D|]. split; [exact F|apply sort_sorted].
Qed.

(* ---- sequences ---- *)
Lemma step_consistent d o : consistent d -> proper d o -> consistent (step d o).
Proof.
  intros C P. destruct o as [n s|n|n|o]; cbn [step].
  - destruct (add_signal d n s) as [d' r] eqn:E. destruct P as [P1 P2]. exact (proj1 (add_spec d n s d' r C E P1 P2)).
  - destruct (remove_signal d n) as [d' r] eqn:E. exact (proj1 (remove_spec d n d' r C E P)).
  - destruct (default_signal d n) as [d' r] eqn:E. exact (proj1 (default_spec d n d' r C E)).
  - destruct (sort_signals d o) as [d' r] eqn:E. exact (proj1 (sort_spec d o d' r C E)).
Qed.
Lemma steps_consistent l : forall d, consistent d -> all_proper d l -> consistent (fold_left step l d).
Proof.
  induction l as [|o l IH]; intros d C P; [exact C|]. destruct P as [P1 P2]. cbn [fold_left]. apply IH; [|exact P2].
  now apply step_consistent.
Qed.
Lemma empty_consistent : consistent empty_data.
Proof. split; [reflexivity|]. split; [discriminate|]. split; [constructor|]. split; [constructor|]. intros n []. Qed.

(* ---- what goes wrong ---- *)
Lemma add_listed d name m : consistent d -> In name (listed d) -> check_shape d name (Create None m) = Ok tt -> m = ModeA ->
  exists d', add_signal d name (Create None m) = (d', Ok tt) /\ ~ NoDup (listed d').
Proof.
  intros (C1 & C2 & C3 & C4 & C5) I K ->. destruct (C5 name I) as (s & T). unfold add_signal. rewrite K.
  assert (Cr : create d name (Create None ModeA) = (x_mem d, Ok tt)).
  { unfold create. destruct T as [-> | ->]; reflexivity. }
  rewrite Cr. eexists. split; [reflexivity|]. unfold listed at 1, sigs, auxs at 2. cbn [x_signal x_aux app]. intros D.
  inversion D as [|? ? N _]; subst. apply N. unfold listed in I. apply in_app_iff in I.
  assert (J : In name (auxs d ++ sigs d)) by (apply in_app_iff; tauto).
  destruct (auxs d ++ match x_signal d with Some n => [n] | None => [] end) eqn:Q.
  - unfold sigs in J. rewrite Q in J. destruct J.
  - unfold sigs in J. rewrite Q in J. exact J.
Qed.
Lemma remove_last d name : consistent d -> listed d = [name] ->
  exists d', remove_signal d name = (d', Ok tt) /\ listed d' = [name] /\ lookup name (x_mem d') = None.
Proof.
  intros (C1 & C2 & C3 & C4 & C5) L. destruct (C5 name) as (s & T); [rewrite L; now left|].
  assert (S : x_signal d = Some name /\ x_aux d = None).
  { unfold listed, sigs, auxs in L. destruct (x_signal d) as [n|]; cbn [app] in L.
    - injection L as -> L. split; [reflexivity|]. destruct (x_aux d); [congruence|reflexivity].
    - rewrite (C1 eq_refl) in L. discriminate. }
  destruct S as [S X]. unfold remove_signal. rewrite X. eexists. split.
  - destruct T as [-> | ->]; reflexivity.
  - split; [exact L|]. now apply lookup_del_same.
Qed.

(* all signals of the same shape, along any sequence *)
Lemma axes_step d o : x_axes (step d o) = x_axes d.
Proof.
  destruct o as [n s|n|n|o]; cbn [step].
  - unfold add_signal. destruct (check_shape d n s); [|reflexivity]. destruct (create d n s) as [l [|]]; reflexivity.
  - unfold remove_signal. destruct (lookup n (x_mem d)) as [[| |[|]]|]; destruct (x_aux d) as [aux|]; try reflexivity;
      destruct (x_signal d) as [m|]; try reflexivity; destruct (chars_eqb m n); try reflexivity; destruct aux; reflexivity.
  - unfold default_signal. destruct (match x_signal d with Some n0 => chars_eqb n n0 | None => false end); [reflexivity|].
    destruct (existsb (chars_eqb n) (sigs d ++ auxs d)); reflexivity.
  - unfold sort_signals. destruct (x_signal d); [|reflexivity]. destruct o as [o|].
    + destruct (names_eqb (sort_names o) _); [|reflexivity]. destruct o; reflexivity.
    + destruct (sort_names (c :: auxs d)); reflexivity.
Qed.
Lemma step_uniform d o s0 : consistent d -> proper d o -> x_axes d = [] -> s0 <> [] -> listed d <> [] ->
  uniform d s0 -> uniform (step d o) s0 /\ listed (step d o) <> [].
Proof.
  intros C P A Nz Ne U. destruct o as [n s|n|n|o]; cbn [step].
  - destruct (add_signal d n s) as [d' r] eqn:E. cbn [fst]. destruct P as [P1 P2].
    pose proof (add_spec d n s d' r C E P1 P2) as (C' & R & Th). destruct r as [[]|x].
    + split; [|destruct R as [_ ->]; discriminate]. exact (add_shape d n s d' s0 C E P1 P2 A Nz Ne U).
    + destruct R as [R _]. split; [|now rewrite R]. intros m I. rewrite R in I. apply Th; [exact I|]. now apply U.
  - destruct (remove_signal d n) as [d' r] eqn:E. cbn [fst]. pose proof (remove_spec d n d' r C E P) as (C' & R & Th).
    destruct r as [u|x].
    + destruct R as (R & _). split.
      * intros m I. apply (Permutation_in _ R), in_without in I as [I J]. apply Th; [exact J|]. now apply U.
      * intros Q. rewrite Q in R. apply Permutation_nil in R. destruct (listed d) as [|a l] eqn:L; [congruence|].
        assert (AllN : forall m, In m (a :: l) -> m = n).
        { intros m I. destruct (chars_eqb m n) eqn:X; [now apply chars_eqb_spec|]. exfalso.
          assert (J : In m (filter (fun s => negb (chars_eqb s n)) (a :: l))) by (apply filter_In; split; [exact I|now rewrite X]).
          rewrite R in J. destruct J. }
        destruct C as (_ & _ & D & _). rewrite L in D. assert (a = n) as -> by (apply AllN; now left).
        destruct l as [|b l]; [now apply P; rewrite L|]. assert (b = n) as -> by (apply AllN; right; now left).
        inversion D as [|? ? N _]. apply N. now left.
    + subst d'. now split.
  - destruct (default_signal d n) as [d' r] eqn:E. cbn [fst]. destruct (default_spec d n d' r C E) as (_ & R & M & _). split.
    + intros m I. apply (Permutation_in _ R) in I. unfold there. rewrite M. now apply U.
    + intros Q. rewrite Q in R. apply Permutation_nil in R. contradiction.
  - destruct (sort_signals d o) as [d' r] eqn:E. cbn [fst]. destruct (sort_spec d o d' r C E) as (_ & R & M & _). split.
    + intros m I. apply (Permutation_in _ R) in I. unfold there. rewrite M. now apply U.
    + intros Q. rewrite Q in R. apply Permutation_nil in R. contradiction.
Qed.
Lemma steps_uniform l s0 : forall d, consistent d -> all_proper d l -> x_axes d = [] -> s0 <> [] -> listed d <> [] ->
  uniform d s0 -> forall n, In n (listed (fold_left step l d)) -> there (fold_left step l d) n s0.
Proof.
  induction l as [|o l IH]; intros d C P A Nz Ne U; [exact U|]. destruct P as [P1 P2]. cbn [fold_left].
  destruct (step_uniform d o s0 C P1 A Nz Ne U) as [U' Ne']. apply IH; auto.
  - now apply step_consistent.
  - now rewrite axes_step.
Qed.
