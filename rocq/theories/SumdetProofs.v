From Verif Require Export NxlazyProofs.
From Verif Require Import ListToolsProofs LutProofs.
Local Open Scope list_scope.
Local Open Scope nat_scope.

Lemma key_decides : decides_eq key_eqb.
Proof.
  intros a b. destruct a, b; cbn; try (split; congruence); rewrite Z.eqb_eq; split; congruence.
Qed.
Lemma str_decides : decides_eq String.eqb.
Proof. intros a b. apply String.eqb_eq. Qed.
Lemma key_eq_dec (a b : key) : {a = b} + {a <> b}.
Proof. destruct (key_eqb a b) eqn:E; [left; apply key_decides, E|right; intros ->; rewrite (proj2 (key_decides b b) eq_refl) in E; discriminate]. Qed.
Lemma key_eqb_refl a : key_eqb a a = true.
Proof. apply key_decides. reflexivity. Qed.
Lemma key_eqb_neq a b : a <> b -> key_eqb a b = false.
Proof. intro H. destruct (key_eqb a b) eqn:E; [|reflexivity]. apply key_decides in E. contradiction. Qed.

Section Stacks.
Context {A : Type}.
Implicit Types (s : stacks A) (cs : list (list (arg A))).

(* ---- expressions ---- *)
Lemma built_length f n cs : List.length (built f n cs) = n.
Proof. unfold built. rewrite map_length. apply seq_length. Qed.
Lemma built_nth f n cs i : i < n -> nth_error (built f n cs) i = Some (Slice f (flat_map (fun args => match nth_error args i with Some a => merged f a | None => [] end) cs)).
Proof.
  intro H. unfold built. rewrite nth_error_map. rewrite (nth_error_nth' _ 0) by (rewrite seq_length; exact H). rewrite seq_nth by exact H. reflexivity.
Qed.
Lemma built_nil f n : repeat (Slice f []) n = built (A := A) f n [].
Proof.
  unfold built. cbn [flat_map]. generalize 0. induction n as [|n IH]; intro k; [reflexivity|]. cbn [repeat seq map]. f_equal. apply IH.
Qed.
Lemma append_list_ok (ds args : list (arg A)) : List.length args = List.length ds -> Forall (fun d => exists f l, d = Slice f l) ds ->
  exists r, append_list ds args = Ok r /\ List.length r = List.length ds /\
    forall i d a, nth_error ds i = Some d -> nth_error args i = Some a -> exists f l, d = Slice f l /\ nth_error r i = Some (Slice f (l ++ merged f a)).
Proof.
  revert args. induction ds as [|d ds IH]; intros [|a args] L F; try discriminate.
  - exists []. split; [reflexivity|]. split; [reflexivity|]. intros [|i] ? ? H; discriminate.
  - inversion F as [|? ? (f & l & ->) F']; subst. cbn [append_list append_to bind]. destruct (IH args ltac:(cbn in L; lia) F') as (r & -> & Lr & Pr). cbn [bind].
    eexists. split; [reflexivity|]. split; [cbn [List.length]; lia|]. intros [|i] d a0 Hd Ha; cbn [nth_error] in *.
    + exists f, l. split; [congruence|]. assert (a0 = a) as -> by congruence. rewrite appendarg_merged. reflexivity.
    + apply (Pr i d a0 Hd Ha).
Qed.
Lemma nth_error_ext {B} (l m : list B) : (forall i, nth_error l i = nth_error m i) -> l = m.
Proof.
  revert m. induction l as [|x l IH]; intros [|y m] H; [reflexivity|specialize (H 0); discriminate|specialize (H 0); discriminate|].
  pose proof (H 0) as H0. cbn in H0. assert (x = y) as -> by congruence. f_equal. apply IH. intro i. apply (H (S i)).
Qed.
Lemma append_built f n cs args : List.length args = n -> append_list (built f n cs) args = Ok (built f n (cs ++ [args])).
Proof.
  intro L. destruct (append_list_ok (built f n cs) args) as (r & -> & Lr & Pr); [rewrite built_length; exact L| |].
  { unfold built. apply Forall_forall. intros x Hx. apply in_map_iff in Hx. destruct Hx as (i & <- & _). do 2 eexists. reflexivity. }
  f_equal. apply nth_error_ext. intro i. rewrite built_length in Lr. destruct (Nat.lt_ge_cases i n) as [H|H].
  - destruct (nth_error args i) as [a|] eqn:Ea; [|apply nth_error_None in Ea; lia]. destruct (Pr i _ a (built_nth f n cs i H) Ea) as (f' & l' & E & ->).
    assert (f' = f /\ l' = flat_map (fun args => match nth_error args i with Some a => merged f a | None => [] end) cs) as [-> ->] by (inversion E; split; reflexivity). rewrite built_nth by exact H. rewrite flat_map_app. cbn [flat_map]. rewrite Ea, app_nil_r. reflexivity.
  - rewrite !(proj2 (nth_error_None _ _)); [reflexivity|rewrite built_length; lia|lia].
Qed.
Lemma func_merges counters k : samemerge (func_of counters k) = true /\ fn_eqb (func_of counters k) (func_of counters k) = true.
Proof. unfold func_of. destruct (existsb (String.eqb k) counters); [split; reflexivity|]. match goal with |- context [if ?b then Fnanmean else _] => destruct b end; [split; reflexivity|]. match goal with |- context [if ?b then Fnanmax else _] => destruct b end; split; reflexivity. Qed.
Lemma built_flat counters k n (css : list (list (list (arg A)))) :
  built (func_of counters k) n (map (built (func_of counters k) n) css) = built (func_of counters k) n (concat css).
Proof.
  set (f := func_of counters k). destruct (func_merges counters k) as [S E]. fold f in S, E. unfold built at 1 3. apply map_ext_in. intros i Hi. apply in_seq in Hi. f_equal.
  induction css as [|cs css IH]; [reflexivity|]. cbn [map flat_map concat]. rewrite built_nth by lia. cbn [merged]. rewrite E, S. cbn [andb]. rewrite IH, flat_map_app. reflexivity.
Qed.

(* ---- one detector ---- *)
Lemma existsb_In k (l : list string) : existsb (String.eqb k) l = true <-> In k l.
Proof.
  rewrite existsb_exists. split; [intros (x & H & E); apply String.eqb_eq in E; subst; exact H|intro H; exists k; split; [exact H|apply String.eqb_refl]].
Qed.
Definition mono (counters : list string) (n : nat) (P : option (list (list (arg A)))) (k : string) : option (list (arg A)) := option_map (built (func_of counters k) n) P.
Definition join (P : option (list (list (arg A)))) (a : option (list (arg A))) : option (list (list (arg A))) :=
  match a with None => P | Some a => Some (match P with Some cs => cs | None => [] end ++ [a]) end.
Lemma add_labels_ok counters n fx : forall l labels P, NoDup (map fst l) -> NoDup (map fst labels) ->
  (forall k a, In (k, a) l -> ~ In k fx -> List.length a = n) ->
  (forall k, ~ In k fx -> lookup String.eqb k labels = mono counters n (P k) k) ->
  exists labels', add_labels counters n fx labels l = Ok labels' /\ NoDup (map fst labels') /\
    forall k, lookup String.eqb k labels' = if existsb (String.eqb k) fx then lookup String.eqb k labels else mono counters n (join (P k) (lookup String.eqb k l)) k.
Proof.
  induction l as [|[k0 a0] l IH]; intros labels P ND NL Len Inv.
  - exists labels. split; [reflexivity|]. split; [exact NL|]. intro k. cbn [lookup join]. destruct (existsb (String.eqb k) fx) eqn:E; [reflexivity|]. apply Inv. intro H. apply existsb_In in H. congruence.
  - cbn [map] in ND. inversion ND as [|? ? Nk ND']; subst. cbn [add_labels]. unfold add_label.
    assert (lookup String.eqb k0 l = None) as L0 by (apply (lookup_None _ str_decides); exact Nk).
    destruct (existsb (String.eqb k0) fx) eqn:F0.
    + cbn [bind]. destruct (IH labels P ND' NL (fun k a H => Len k a (or_intror H)) Inv) as (labels' & E & N' & H). exists labels'. split; [exact E|]. split; [exact N'|].
      intro k. rewrite H. destruct (existsb (String.eqb k) fx) eqn:Fk; [reflexivity|]. cbn [lookup]. destruct (String.eqb_spec k k0) as [-> |]; [congruence|reflexivity].
    + assert (~ In k0 fx) as NI by (intro X; apply existsb_In in X; congruence).
      match goal with |- context [append_list ?x a0] => assert (x = built (func_of counters k0) n (match P k0 with Some cs => cs | None => [] end)) as -> end.
      { rewrite (Inv k0 NI). unfold mono. destruct (P k0); cbn [option_map]; [reflexivity|apply built_nil]. }
      rewrite append_built by (apply (Len k0 a0); [left; reflexivity|exact NI]). cbn [bind].
      set (P' := fun k => if String.eqb k k0 then join (P k0) (Some a0) else P k).
      destruct (IH (assign String.eqb k0 (built (func_of counters k0) n (match P k0 with Some cs => cs | None => [] end ++ [a0])) labels) P' ND') as (labels' & E & N' & H).
      * apply (NoDup_keys_assign _ str_decides). exact NL.
      * intros k a Hin. apply Len. right. exact Hin.
      * intros k Hk. unfold P'. destruct (String.eqb_spec k k0) as [-> |Ne]; [rewrite (lookup_assign_same _ str_decides); reflexivity|].
        rewrite (lookup_assign_other _ str_decides) by exact Ne. apply Inv, Hk.
      * exists labels'. split; [exact E|]. split; [exact N'|]. intro k. rewrite H. cbn [lookup]. destruct (existsb (String.eqb k) fx) eqn:Fk.
        -- destruct (String.eqb_spec k k0) as [-> |Ne]; [congruence|]. apply (lookup_assign_other _ str_decides). exact Ne.
        -- unfold P'. destruct (String.eqb_spec k k0) as [-> |Ne]; [rewrite L0; reflexivity|reflexivity].
Qed.

(* ---- all detectors ---- *)
Definition fixed_of s (fixed : list (key * list string)) (D : key) : list string :=
  match lookup key_eqb D fixed with Some x => x | None => match lookup key_eqb D s with Some l => map fst l | None => [] end end.
Definition inv counters n s (fixed : list (key * list string)) (P : key -> string -> option (list (list (arg A)))) : Prop :=
  forall D k, ~ In k (fixed_of s fixed D) -> view s D k = mono counters n (P D k) k.
Lemma dict_lookup s D l : dict s -> lookup key_eqb D s = Some l -> NoDup (map fst l).
Proof.
  intros [_ F] L. apply (lookup_Some_In _ key_decides) in L. rewrite Forall_forall in F. apply (F _ L).
Qed.
Lemma Forall_assign (Q : key * list (string * list (arg A)) -> Prop) k v s : Forall Q s -> Q (k, v) -> Forall Q (assign key_eqb k v s).
Proof.
  induction s as [|[k' v'] s IH]; intros F Hq; cbn [assign]; [constructor; [exact Hq|constructor]|]. inversion F; subst. destruct (key_eqb k k') eqn:E.
  - constructor; [|assumption]. apply key_decides in E. subst. exact Hq.
  - constructor; [assumption|]. apply IH; assumption.
Qed.
Lemma Forall_remove (Q : key * list (string * list (arg A)) -> Prop) k s : Forall Q s -> Forall Q (remove_key key_eqb k s).
Proof.
  induction s as [|[k' v'] s IH]; intros F; cbn [remove_key]; [constructor|]. inversion F; subst. destruct (key_eqb k k'); [assumption|]. constructor; [assumption|]. apply IH; assumption.
Qed.
Lemma add_one_ok counters n s fixed P k1 dest l : dict s -> inv counters n s fixed P -> k1 <> dest -> lookup key_eqb k1 s = Some l ->
  (forall k a, In (k, a) l -> List.length a = n) ->
  exists s' fixed', add_one counters n (s, fixed) (k1, dest) = Ok (s', fixed') /\ dict s' /\
    (forall D k, view s' D k = if key_eqb D k1 then None else if key_eqb D dest then
        (if existsb (String.eqb k) (fixed_of s fixed dest) then view s dest k else mono counters n (join (P dest k) (view s k1 k)) k)
      else view s D k) /\
    (forall D, D <> k1 -> fixed_of s' fixed' D = fixed_of s fixed D) /\
    (lookup key_eqb k1 s' = None) /\ (forall D, D <> k1 -> D <> dest -> lookup key_eqb D s' = lookup key_eqb D s) /\ lookup key_eqb dest s' <> None.
Proof.
  intros Ds Inv Ne L Len. unfold add_one. rewrite L.
  set (labels := match lookup key_eqb dest s with Some d => d | None => [] end).
  assert (match lookup key_eqb dest fixed with Some x => x | None => map fst labels end = fixed_of s fixed dest) as ->.
  { unfold fixed_of, labels. destruct (lookup key_eqb dest fixed); [reflexivity|]. destruct (lookup key_eqb dest s); reflexivity. }
  assert (forall k, lookup String.eqb k labels = view s dest k) as Lab by (intro k; unfold labels, view; destruct (lookup key_eqb dest s); reflexivity).
  assert (NoDup (map fst labels)) as NL by (unfold labels; destruct (lookup key_eqb dest s) eqn:E; [apply (dict_lookup s dest _ Ds E)|constructor]).
  destruct (add_labels_ok counters n (fixed_of s fixed dest) l labels (P dest) (dict_lookup s k1 l Ds L) NL (fun k a H _ => Len k a H)) as (labels' & E & N' & H).
  { intros k Hk. rewrite Lab. apply Inv, Hk. }
  rewrite E. cbn [bind]. eexists. eexists. split; [reflexivity|].
  set (s1 := match lookup key_eqb dest s with Some _ => s | None => assign key_eqb dest [] s end).
  assert (forall D, D <> dest -> lookup key_eqb D s1 = lookup key_eqb D s) as L1.
  { intros D HD. unfold s1. destruct (lookup key_eqb dest s); [reflexivity|]. apply (lookup_assign_other _ key_decides). exact HD. }
  assert (dict s1) as D1.
  { unfold s1. destruct (lookup key_eqb dest s); [exact Ds|]. destruct Ds as [N F]. split; [apply (NoDup_keys_assign _ key_decides), N|apply Forall_assign; [exact F|constructor]]. }
  assert (dict (assign key_eqb dest labels' s1)) as D2 by (destruct D1 as [N F]; split; [apply (NoDup_keys_assign _ key_decides), N|apply Forall_assign; [exact F|exact N']]).
  assert (forall D, lookup key_eqb D (remove_key key_eqb k1 (assign key_eqb dest labels' s1)) = if key_eqb D k1 then None else if key_eqb D dest then Some labels' else lookup key_eqb D s) as LS.
  { intro D. destruct (key_eq_dec D k1) as [-> |N1].
    - rewrite key_eqb_refl. apply (lookup_remove_same _ key_decides). apply D2.
    - rewrite key_eqb_neq by exact N1. rewrite (lookup_remove_other _ key_decides) by exact N1. destruct (key_eq_dec D dest) as [-> |N2].
      + rewrite key_eqb_refl. apply (lookup_assign_same _ key_decides).
      + rewrite key_eqb_neq by exact N2. rewrite (lookup_assign_other _ key_decides) by exact N2. apply L1, N2. }
  split; [|split; [|split; [|split; [|split]]]].
  - destruct D2 as [N F]. split; [apply (NoDup_keys_remove _ key_decides), N|apply Forall_remove, F].
  - intros D k. unfold view at 1. rewrite LS. destruct (key_eqb D k1) eqn:E1; [reflexivity|]. destruct (key_eqb D dest) eqn:E2; [|reflexivity].
    rewrite H, Lab. unfold view at 3. rewrite L. reflexivity.
  - intros D HD. unfold fixed_of at 1. destruct (key_eq_dec D dest) as [-> |N2]; [rewrite (lookup_assign_same _ key_decides); reflexivity|].
    rewrite (lookup_assign_other _ key_decides) by exact N2. rewrite LS, (key_eqb_neq D k1 HD), (key_eqb_neq D dest N2). reflexivity.
  - rewrite LS, key_eqb_refl. reflexivity.
  - intros D HD N2. rewrite LS, (key_eqb_neq D k1 HD), (key_eqb_neq D dest N2). reflexivity.
  - rewrite LS, (key_eqb_neq dest k1) by congruence. rewrite key_eqb_refl. discriminate.
Qed.
Definition joins (P : option (list (list (arg A)))) cs : option (list (list (arg A))) :=
  match cs with [] => P | _ => Some (match P with Some p => p | None => [] end ++ cs) end.
Lemma add_all_ok counters n : forall l s fixed P, dict s -> inv counters n s fixed P -> one_level l -> complete n s l ->
  exists s' fixed', add_all counters n (s, fixed) l = Ok (s', fixed') /\ dict s' /\
    (forall D k, ~ In D (map fst l) -> view s' D k = if existsb (String.eqb k) (fixed_of s fixed D) then view s D k else mono counters n (joins (P D k) (contributions s l D k)) k) /\
    (forall D, In D (map fst l) -> lookup key_eqb D s' = None) /\
    (forall D, ~ In D (map fst l) -> fixed_of s' fixed' D = fixed_of s fixed D) /\
    (forall D, ~ In D (map fst l) -> (forall k1, In (k1, D) l -> lookup key_eqb k1 s = None) -> lookup key_eqb D s' = lookup key_eqb D s) /\
    (forall D k1, ~ In D (map fst l) -> In (k1, D) l -> lookup key_eqb k1 s <> None -> lookup key_eqb D s' <> None).
Proof.
  induction l as [|[k1 dest] l IH]; intros s fixed P Ds Inv [ND OL] Cp.
  - exists s, fixed. split; [reflexivity|]. split; [exact Ds|]. split; [|split; [|split; [|split]]].
    + intros D k _. cbn [contributions flat_map joins]. destruct (existsb (String.eqb k) (fixed_of s fixed D)) eqn:E; [reflexivity|]. apply Inv. intro X. apply existsb_In in X. congruence.
    + intros D [].
    + reflexivity.
    + reflexivity.
    + intros D k1 _ [].
  - cbn [map fst] in ND. inversion ND as [|? ? N1 ND']; subst.
    assert (one_level l) as OL' by (split; [exact ND'|intros k d Hin X; apply (OL k d (or_intror Hin)); right; exact X]).
    assert (k1 <> dest) as Ne by (intros ->; apply (OL dest dest (or_introl eq_refl)); left; reflexivity).
    assert (~ In dest (map fst l)) as Nd by (intro X; apply (OL k1 dest (or_introl eq_refl)); right; exact X).
    cbn [add_all]. destruct (lookup key_eqb k1 s) as [lab|] eqn:L.
    + destruct (add_one_ok counters n s fixed P k1 dest lab Ds Inv Ne L) as (s1 & f1 & E1 & D1 & V1 & F1 & L1 & O1 & X1).
      { intros k a Hin. apply (Cp k1 k a); [left; reflexivity|]. unfold view. rewrite L. apply (In_lookup _ str_decides); [apply (dict_lookup s k1 lab Ds L)|exact Hin]. }
      set (P' := fun D k => if key_eqb D k1 then None else if key_eqb D dest then join (P D k) (view s k1 k) else P D k).
      assert (forall k, view s1 k1 k = None) as V1k by (intro k; unfold view; rewrite L1; reflexivity).
      destruct (IH s1 f1 P' D1) as (s' & f' & E' & D' & V' & R' & F' & O' & X').
      * intros D k Hk. destruct (key_eq_dec D k1) as [-> |HD].
        -- rewrite V1k. unfold P'. rewrite key_eqb_refl. reflexivity.
        -- rewrite F1 in Hk by exact HD. rewrite V1. unfold P'. rewrite (key_eqb_neq D k1 HD). destruct (key_eq_dec D dest) as [-> |H2].
           ++ rewrite key_eqb_refl. destruct (existsb (String.eqb k) (fixed_of s fixed dest)) eqn:E; [apply existsb_In in E; contradiction|reflexivity].
           ++ rewrite (key_eqb_neq D dest H2). apply Inv, Hk.
      * exact OL'.
      * intros k2 k a Hin Hv. assert (k2 <> k1) as N2 by (intros ->; contradiction). assert (k2 <> dest) as N3 by (intros ->; contradiction).
        rewrite V1, (key_eqb_neq k2 k1 N2), (key_eqb_neq k2 dest N3) in Hv. apply (Cp k2 k a); [right; exact Hin|exact Hv].
      * exists s', f'. rewrite E1. cbn [bind]. split; [exact E'|]. split; [exact D'|].
        assert (forall D k, contributions s1 l D k = contributions s l D k) as CC.
        { intros D k. unfold contributions. rewrite !flat_map_concat_map. f_equal. apply map_ext_in. intros [k2 d2] Hin. cbn [fst snd].
          assert (In k2 (map fst l)) as Hk2 by (apply (in_map fst) in Hin; exact Hin).
          assert (k2 <> k1) as N2 by (intros ->; contradiction). assert (k2 <> dest) as N3 by (intros ->; contradiction).
          rewrite V1, (key_eqb_neq k2 k1 N2), (key_eqb_neq k2 dest N3). reflexivity. }
        split; [|split; [|split; [|split]]].
        -- intros D k HD. cbn [map fst] in HD. assert (D <> k1) as H1 by (intros ->; apply HD; left; reflexivity).
           assert (~ In D (map fst l)) as H2 by (intro X; apply HD; right; exact X). rewrite (V' D k H2), (F1 D H1), CC, V1, (key_eqb_neq D k1 H1).
           unfold P'. rewrite (key_eqb_neq D k1 H1). unfold contributions at 2. cbn [flat_map fst snd]. fold (contributions s l D k).
           destruct (key_eq_dec D dest) as [-> |H3].
           ++ rewrite !key_eqb_refl. destruct (existsb (String.eqb k) (fixed_of s fixed dest)) eqn:Ef; [reflexivity|].
              f_equal. unfold joins, join. destruct (view s k1 k) as [a|]; cbn [app]; [|reflexivity]. destruct (contributions s l dest k); [reflexivity|]. rewrite <- app_assoc. reflexivity.
           ++ rewrite (key_eqb_neq D dest H3), (key_eqb_neq dest D) by congruence. reflexivity.
        -- intros D [<-|Hin].
           ++ cbn [fst]. rewrite O'; [exact L1|exact N1|]. intros k2 Hk2. exfalso. apply (OL k2 k1 (or_intror Hk2)). left. reflexivity.
           ++ apply R', Hin.
        -- intros D HD. cbn [map fst] in HD. rewrite F' by (intro X; apply HD; right; exact X). apply F1. intros ->. apply HD. left. reflexivity.
        -- intros D HD Hn. cbn [map fst] in HD. assert (D <> k1) as H1 by (intros ->; apply HD; left; reflexivity).
           assert (D <> dest) as H3 by (intros ->; specialize (Hn k1 (or_introl eq_refl)); congruence).
           rewrite O'; [apply O1; assumption|intro X; apply HD; right; exact X|]. intros k2 Hk2.
           assert (In k2 (map fst l)) as Hin by (apply (in_map fst) in Hk2; exact Hk2).
           assert (k2 <> k1) as N2 by (intros ->; contradiction). assert (k2 <> dest) as N3 by (intros ->; contradiction).
           rewrite O1 by assumption. apply Hn. right. exact Hk2.
        -- intros D k2 HD Hin Hp. cbn [map fst] in HD. assert (~ In D (map fst l)) as H2 by (intro X; apply HD; right; exact X).
           assert (lookup key_eqb D s1 <> None -> lookup key_eqb D s' <> None) as Keep.
           { intro K. destruct (in_dec key_eq_dec D (map snd (filter (fun kd => match lookup key_eqb (fst kd) s1 with Some _ => true | None => false end) l))) as [I|I].
             - apply in_map_iff in I. destruct I as ([k3 d3] & <- & I). apply filter_In in I. destruct I as [I1 I2]. cbn [fst snd] in *.
               apply (X' d3 k3 H2 I1). destruct (lookup key_eqb k3 s1); [discriminate|discriminate].
             - rewrite O'; [exact K|exact H2|]. intros k3 Hk3. destruct (lookup key_eqb k3 s1) eqn:E3; [|reflexivity]. exfalso. apply I. apply in_map_iff. exists (k3, D). split; [reflexivity|].
               apply filter_In. cbn [fst]. rewrite E3. split; [exact Hk3|reflexivity]. }
           destruct Hin as [Hin|Hin].
           ++ apply Keep. assert (D = dest) as -> by congruence. exact X1.
           ++ assert (In k2 (map fst l)) as Hk2 by (apply (in_map fst) in Hin; exact Hin).
              assert (k2 <> k1) as N2 by (intros ->; contradiction). assert (k2 <> dest) as N3 by (intros ->; contradiction).
              apply (X' D k2 H2 Hin). rewrite O1 by assumption. exact Hp.
    + unfold add_one. rewrite L. cbn [bind].
      destruct (IH s fixed P Ds Inv OL') as (s' & f' & E' & D' & V' & R' & F' & O' & X'); [intros k2 k a Hin; apply Cp; right; exact Hin|].
      exists s', f'. split; [exact E'|]. split; [exact D'|].
      assert (forall D k, contributions s ((k1, dest) :: l) D k = contributions s l D k) as CC.
      { intros D k. unfold contributions. cbn [flat_map fst snd]. unfold view at 1. rewrite L. destruct (key_eqb dest D); reflexivity. }
      split; [|split; [|split; [|split]]].
      * intros D k HD. rewrite CC. apply V'. intro X. apply HD. right. exact X.
      * intros D [<-|Hin]; [|apply R', Hin]. cbn [fst]. rewrite O'; [exact L|exact N1|]. intros k2 Hk2. exfalso. apply (OL k2 k1 (or_intror Hk2)). left. reflexivity.
      * intros D HD. apply F'. intro X. apply HD. right. exact X.
      * intros D HD Hn. apply O'; [intro X; apply HD; right; exact X|]. intros k2 Hk2. apply Hn. right. exact Hk2.
      * intros D k2 HD [Hin|Hin] Hp; [assert (k2 = k1) as -> by congruence; contradiction|]. apply (X' D k2); [intro X; apply HD; right; exact X|exact Hin|exact Hp].
Qed.

Lemma fixed_view s D k : In k (fixed_of s [] D) <-> view s D k <> None.
Proof.
  unfold fixed_of, view. cbn [lookup]. destruct (lookup key_eqb D s) as [l|]; [|cbn; split; [intros []|intro H; contradiction]].
  destruct (lookup String.eqb k l) eqn:E.
  - split; [discriminate|]. intros _. apply (lookup_Some_In _ str_decides) in E. apply (in_map fst) in E. exact E.
  - apply (lookup_None _ str_decides) in E. split; [intro H; contradiction|congruence].
Qed.
Lemma inv_start counters n s : inv counters n s [] (fun _ _ => None).
Proof.
  intros D k H. unfold mono. cbn [option_map]. destruct (view s D k) eqn:E; [|reflexivity]. exfalso. apply H, fixed_view. congruence.
Qed.
Lemma fixed_case {B} s D k (x : option (list (arg A)) -> B) (y : B) :
  (if existsb (String.eqb k) (fixed_of s [] D) then x (view s D k) else y) = match view s D k with Some a => x (Some a) | None => y end.
Proof.
  destruct (existsb (String.eqb k) (fixed_of s [] D)) eqn:E.
  - apply existsb_In, fixed_view in E. destruct (view s D k); [reflexivity|contradiction].
  - destruct (view s D k) eqn:Ev; [|reflexivity]. assert (In k (fixed_of s [] D)) as H by (apply fixed_view; congruence). apply existsb_In in H. congruence.
Qed.
Definition total counters n cs k : option (list (arg A)) := match cs with [] => None | _ => Some (built (func_of counters k) n cs) end.
Lemma mono_joins counters n cs k : mono counters n (joins None cs) k = total counters n cs k.
Proof. destruct cs; reflexivity. Qed.
Lemma add_one_level counters n s l : dict s -> one_level l -> complete n s l ->
  exists s', add_detectors counters n s l = Ok s' /\ dict s' /\
   (forall D, In D (map fst l) -> lookup key_eqb D s' = None) /\
   (forall D, ~ In D (map fst l) -> ~ In D (map snd l) -> lookup key_eqb D s' = lookup key_eqb D s) /\
   (forall D k, ~ In D (map fst l) ->
      view s' D k = match view s D k with Some a => Some a | None => match contributions s l D k with [] => None | cs => Some (built (func_of counters k) n cs) end end).
Proof.
  intros Ds OL Cp. destruct (add_all_ok counters n l s [] _ Ds (inv_start counters n s) OL Cp) as (s' & f' & E & D' & V & R & _ & O & _).
  exists s'. unfold add_detectors. rewrite E. split; [reflexivity|]. split; [exact D'|]. split; [exact R|]. split.
  - intros D H1 H2. apply O; [exact H1|]. intros k1 Hin. exfalso. apply H2. apply (in_map snd) in Hin. exact Hin.
  - intros D k H1. rewrite (V D k H1), (fixed_case s D k (fun v => v)). destruct (view s D k); [reflexivity|]. rewrite mono_joins. destruct (contributions s l D k); reflexivity.
Qed.
Lemma add_all_app counters n l1 l2 st : add_all (A := A) counters n st (l1 ++ l2) = let! st' := add_all counters n st l1 in add_all counters n st' l2.
Proof.
  revert st. induction l1 as [|kd l1 IH]; intro st; [reflexivity|]. cbn [app add_all]. destruct (add_one counters n st kd); cbn [bind]; [apply IH|reflexivity].
Qed.
Lemma total_length counters n cs k a : total counters n cs k = Some a -> List.length a = n.
Proof. destruct cs; [discriminate|]. cbn [total]. intro H. assert (a = built (func_of counters k) n (l :: cs)) as -> by congruence. apply built_length. Qed.
Lemma add_two_levels counters n s l1 l2 T : dict s -> one_level l1 -> one_level l2 -> complete n s l1 ->
  (forall g D, In (g, D) l2 -> D = T /\ ~ In g (map fst l1) /\ lookup key_eqb g s = None) ->
  ~ In T (map fst l1) -> ~ In T (map snd l1) -> ~ In T (map fst l2) -> lookup key_eqb T s = None ->
  exists s', add_detectors counters n s (l1 ++ l2) = Ok s' /\
   (forall D, In D (map fst l1) \/ In D (map fst l2) -> lookup key_eqb D s' = None) /\
   (forall k, view s' T k = match flat_map (fun g => contributions s l1 g k) (map fst l2) with [] => None | cs => Some (built (func_of counters k) n cs) end).
Proof.
  intros Ds O1 O2 Cp G T1 T2 T3 TN. destruct (add_all_ok counters n l1 s [] _ Ds (inv_start counters n s) O1 Cp) as (s1 & f1 & E1 & D1 & V1 & R1 & F1 & K1 & _).
  set (P := fun D k => if in_dec key_eq_dec D (map fst l1) then None else joins None (contributions s l1 D k)).
  assert (forall g k, ~ In g (map fst l1) -> lookup key_eqb g s = None -> view s1 g k = total counters n (contributions s l1 g k) k) as Vg.
  { intros g k H1 H2. assert (view s g k = None) as Hv by (unfold view; rewrite H2; reflexivity).
    rewrite (V1 g k H1), (fixed_case s g k (fun v => v)), Hv. apply mono_joins. }
  destruct (add_all_ok counters n l2 s1 f1 P D1) as (s' & f' & E' & D' & V' & R' & F' & K' & _).
  - intros D k Hk. unfold P. destruct (in_dec key_eq_dec D (map fst l1)) as [I|I].
    + unfold view. rewrite (R1 D I). reflexivity.
    + rewrite (F1 D I) in Hk. rewrite (V1 D k I). destruct (existsb (String.eqb k) (fixed_of s [] D)) eqn:E; [apply existsb_In in E; contradiction|reflexivity].
  - exact O2.
  - intros g k a Hin Hv. apply in_map_iff in Hin. destruct Hin as ([g' D] & <- & Hin). cbn [fst] in *. destruct (G g' D Hin) as (_ & H1 & H2). rewrite (Vg g' k H1 H2) in Hv. apply (total_length counters n _ k a Hv).
  - exists s'. unfold add_detectors. rewrite add_all_app, E1. cbn [bind]. rewrite E'. split; [reflexivity|]. split.
    + intros D [H|H]; [|apply R', H]. destruct (in_dec key_eq_dec D (map fst l2)) as [I|I]; [apply R', I|].
      rewrite K'; [apply R1, H|exact I|]. intros g Hin. destruct (G g D Hin) as (-> & _ & _). contradiction.
    + intro k. rewrite (V' T k T3), (F1 T T1). assert (view s T k = None) as Hv by (unfold view; rewrite TN; reflexivity).
      assert (existsb (String.eqb k) (fixed_of s [] T) = false) as -> by (destruct (existsb (String.eqb k) (fixed_of s [] T)) eqn:E; [apply existsb_In, fixed_view in E; contradiction|reflexivity]).
      assert (contributions s l1 T k = []) as CT.
      { unfold contributions. rewrite flat_map_concat_map. assert (forall kd, In kd l1 -> key_eqb (snd kd) T = false) as N by (intros kd Hin; apply key_eqb_neq; intros <-; apply T2, in_map, Hin).
        clear -N. induction l1 as [|kd l IH]; [reflexivity|]. cbn [map concat]. rewrite (N kd (or_introl eq_refl)). apply IH. intros x Hx. apply N. right. exact Hx. }
      unfold P. destruct (in_dec key_eq_dec T (map fst l1)) as [I|_]; [contradiction|]. rewrite CT. cbn [joins]. rewrite mono_joins.
      set (css := filter (fun cs => match cs with [] => false | _ => true end) (map (fun g => contributions s l1 g k) (map fst l2))).
      assert (contributions s1 l2 T k = map (built (func_of counters k) n) css) as ->.
      { subst css. unfold contributions at 1. clear -G Vg. induction l2 as [|[g D] l2 IH]; [reflexivity|]. cbn [flat_map map filter fst snd].
        destruct (G g D (or_introl eq_refl)) as (-> & H1 & H2). rewrite key_eqb_refl, (Vg g k H1 H2), IH by (intros g' D' Hin; apply G; right; exact Hin).
        destruct (contributions s l1 g k); reflexivity. }
      assert (concat css = flat_map (fun g => contributions s l1 g k) (map fst l2)) as EC.
      { subst css. rewrite flat_map_concat_map. generalize (map (fun g => contributions s l1 g k) (map fst l2)). intro L. induction L as [|[|c cs] L IH]; [reflexivity|exact IH|]. cbn [filter concat]. rewrite IH. reflexivity. }
      rewrite <- EC. assert (Forall (fun cs => cs <> []) css) as NE by (apply Forall_forall; intros cs Hin; subst css; apply filter_In in Hin; destruct Hin as [_ Hin]; destruct cs; [discriminate|discriminate]).
      clearbody css. destruct css as [|c css]; [reflexivity|]. unfold total. cbn [map]. inversion NE; subst. destruct c as [|c0 c]; [contradiction|].
      cbn [concat app]. f_equal. exact (built_flat counters k n ((c0 :: c) :: css)).
Qed.

(* ---- corrections ---- *)
Lemma map_fst_same {B C} (f : B -> B) (g : B -> C) l : (forall x, g (f x) = g x) -> map g (map f l) = map g l.
Proof. intro H. rewrite map_map. apply map_ext. exact H. Qed.
Lemma lookup_map_str (f : string * list (arg A) -> string * list (arg A)) l k : (forall x, fst (f x) = fst x) ->
  lookup String.eqb k (map f l) = option_map (fun v => snd (f (k, v))) (lookup String.eqb k l).
Proof.
  intro H. induction l as [|[k' v] l IH]; [reflexivity|]. cbn [map lookup]. specialize (H (k', v)) as H0. destruct (f (k', v)) as [k2 v2] eqn:E. cbn [fst] in H0. subst k2. destruct (String.eqb_spec k k') as [-> |_]; [cbn [option_map]; rewrite E; reflexivity|exact IH].
Qed.
Lemma lookup_map_key {V} (f : key * V -> key * V) l k : (forall x, fst (f x) = fst x) ->
  lookup key_eqb k (map f l) = option_map (fun v => snd (f (k, v))) (lookup key_eqb k l).
Proof.
  intro H. induction l as [|[k' v] l IH]; [reflexivity|]. cbn [map lookup]. specialize (H (k', v)) as H0. destruct (f (k', v)) as [k2 v2] eqn:E. cbn [fst] in H0. subst k2. destruct (key_eqb k k') eqn:Ek; [apply key_decides in Ek; subst; cbn [option_map]; rewrite E; reflexivity|exact IH].
Qed.
Lemma postcorrect_xrf_keys counters fl dt s : map fst (postcorrect_xrf counters fl dt s) = map fst s.
Proof. unfold postcorrect_xrf. apply map_fst_same. intros [k l]. cbn [fst]. destruct (isdetector k); reflexivity. Qed.
Lemma correct_label_fst counters fl o (ka : string * list (arg A)) : fst (correct_label counters fl o ka) = fst ka.
Proof. unfold correct_label. destruct (existsb _ counters); reflexivity. Qed.
Lemma view_postcorrect counters fl dt s D k : view (postcorrect_xrf counters fl dt s) D k =
  match view s D k with
  | None => None
  | Some a => Some (if isdetector D && negb (existsb (String.eqb k) counters) then map (correct_one fl (dt_of dt D)) (combine (seq 0 (List.length a)) a) else a)
  end.
Proof.
  unfold view, postcorrect_xrf. rewrite lookup_map_key by (intros [k0 l]; cbn [fst]; destruct (isdetector k0); reflexivity).
  destruct (lookup key_eqb D s) as [l|]; [|reflexivity]. cbn [option_map fst snd]. destruct (isdetector D); cbn [snd andb].
  - rewrite lookup_map_str by (intro; apply correct_label_fst). destruct (lookup String.eqb k l) as [a|]; [|reflexivity]. cbn [option_map]. unfold correct_label. cbn [fst snd].
    destruct (existsb (String.eqb k) counters); reflexivity.
  - destruct (lookup String.eqb k l); reflexivity.
Qed.
Lemma dict_postcorrect counters fl dt s : dict s -> dict (postcorrect_xrf counters fl dt s).
Proof.
  intros [N F]. split; [rewrite postcorrect_xrf_keys; exact N|]. unfold postcorrect_xrf. apply Forall_forall. intros g Hg. apply in_map_iff in Hg. destruct Hg as ([k l] & <- & Hin).
  rewrite Forall_forall in F. specialize (F _ Hin). cbn [fst snd] in *. destruct (isdetector k); cbn [snd]; [|exact F]. rewrite map_fst_same; [exact F|]. intro; apply correct_label_fst.
Qed.
Lemma correct_length fl o (a : list (arg A)) : List.length (map (correct_one fl o) (combine (seq 0 (List.length a)) a)) = List.length a.
Proof. rewrite map_length, combine_length, seq_length. lia. Qed.
Lemma complete_postcorrect counters n fl dt s l : complete n s l -> complete n (postcorrect_xrf counters fl dt s) l.
Proof.
  intros C k1 k a Hin Hv. rewrite view_postcorrect in Hv. destruct (view s k1 k) as [b|] eqn:E; [|discriminate]. specialize (C k1 k b Hin E).
  assert (a = if isdetector k1 && negb (existsb (String.eqb k) counters) then map (correct_one fl (dt_of dt k1)) (combine (seq 0 (List.length b)) b) else b) as -> by congruence.
  destruct (_ && _); [rewrite correct_length|]; exact C.
Qed.
Lemma nth_combine_seq {B} (l : list B) i o : nth_error (combine (seq o (List.length l)) l) i = option_map (fun x => (o + i, x)) (nth_error l i).
Proof.
  revert i o. induction l as [|x l IH]; intros [|i] o; cbn [List.length seq combine nth_error option_map]; try reflexivity.
  - rewrite Nat.add_0_r. reflexivity.
  - rewrite IH. destruct (nth_error l i); cbn [option_map]; [|reflexivity]. do 2 f_equal. lia.
Qed.
Lemma mapM_flat_map {B C D} (f : B -> list C) (g : C -> result D) l : mapM g (flat_map f l) = let! r := mapM (fun x => mapM g (f x)) l in Ok (concat r).
Proof.
  induction l as [|x l IH]; [reflexivity|]. cbn [flat_map mapM]. rewrite mapM_app, IH. destruct (mapM g (f x)) as [ys|e]; cbn [bind]; [|reflexivity]. destruct (mapM (fun x => mapM g (f x)) l); reflexivity.
Qed.
Lemma mapM_map {B C D} (f : B -> C) (g : C -> result D) l : mapM g (map f l) = mapM (fun x => g (f x)) l.
Proof. induction l as [|x l IH]; [reflexivity|]. cbn [map mapM]. rewrite IH. reflexivity. Qed.
Variable leaf : A -> result num.
Variable fluxref flux : nat -> result num.
Variable dtcor : nat -> Z -> num.
Variable other : nat -> list num -> result num.
Let value := eval A leaf fluxref flux dtcor other.
Lemma contributions_post counters fl dt s l D k i f : samemerge f = true -> (forall k1, In k1 (map fst l) -> isdetector k1 = true) -> ~ In k counters ->
  flat_map (fun args => match nth_error args i with Some a => merged f a | None => [] end) (contributions (postcorrect_xrf counters fl dt s) l D k) =
  map (fun e => Slice (Fnorm i fl (dt_of dt (fst e))) [snd e]) (members s l D k i).
Proof.
  intros S Hd Hk. induction l as [|[k1 d1] l IH]; [reflexivity|]. unfold contributions, members in *. cbn [flat_map fst snd]. rewrite flat_map_app, map_app. rewrite IH by (intros x Hx; apply Hd; right; exact Hx).
  f_equal. destruct (key_eqb d1 D); [|reflexivity]. rewrite view_postcorrect. destruct (view s k1 k) as [a|]; [|reflexivity]. rewrite (Hd k1 (or_introl eq_refl)).
  destruct (existsb (String.eqb k) counters) eqn:E; [apply existsb_In in E; contradiction|]. cbn [andb negb flat_map]. rewrite app_nil_r, nth_error_map, nth_combine_seq.
  destruct (nth_error a i) as [x|]; [|reflexivity]. cbn [option_map Nat.add map fst snd]. unfold correct_one. cbn [fst snd merged]. destruct f; try discriminate; reflexivity.
Qed.
Lemma postcorrect_value counters n fl dt s l D k i : dict s -> one_level l -> complete n s l -> In D (map snd l) -> (forall k1, In k1 (map fst l) -> isdetector k1 = true) ->
  ~ In k counters -> view s D k = None -> i < n ->
  exists s', postcorrect counters n fl dt l s = Ok s' /\ (forall k1, In k1 (map fst l) -> lookup key_eqb k1 s' = None) /\
    match view s' D k with
    | None => members s l D k i = []
    | Some a => exists x, nth_error a i = Some x /\
        value x = let! xs := mapM (fun e => let! y := value (snd e) in xrfnorm fluxref flux dtcor i fl (dt_of dt (fst e)) y) (members s l D k i) in
                  apply fluxref flux dtcor other (func_of counters k) xs
    end.
Proof.
  intros Ds OL Cp HD Hdet Hk Hv Hi. unfold postcorrect. set (s0 := postcorrect_xrf counters fl dt s).
  destruct (add_one_level counters n s0 l (dict_postcorrect counters fl dt s Ds) OL (complete_postcorrect counters n fl dt s l Cp)) as (s' & E & _ & R & _ & V).
  exists s'. split; [destruct l; [destruct HD|exact E]|]. split; [exact R|].
  assert (~ In D (map fst l)) as ND by (apply in_map_iff in HD; destruct HD as ([k1 d] & <- & Hin); apply (proj2 OL k1 d Hin)).
  rewrite (V D k ND). unfold s0 at 1. rewrite view_postcorrect, Hv.
  pose proof (contributions_post counters fl dt s l D k i (func_of counters k) (proj1 (func_merges counters k)) Hdet Hk) as CM. fold s0 in CM.
  destruct (contributions s0 l D k) as [|c cs] eqn:EC.
  - cbn [flat_map] in CM. destruct (members s l D k i); [reflexivity|discriminate].
  - eexists. split; [apply built_nth; exact Hi|]. unfold value at 1. cbn [eval]. rewrite CM, mapM_map. 
    assert (forall e : key * arg A, eval A leaf fluxref flux dtcor other (Slice (Fnorm i fl (dt_of dt (fst e))) [snd e]) = let! y := value (snd e) in xrfnorm fluxref flux dtcor i fl (dt_of dt (fst e)) y) as H.
    { intro e. unfold value. cbn [eval mapM]. destruct (eval A leaf fluxref flux dtcor other (snd e)); reflexivity. }
    rewrite (mapM_ext _ _ _ (fun e _ => H e)). reflexivity.
Qed.
End Stacks.
