From Coq Require Import String.
From Verif Require Import BaseProofs HashSpec HashProofs NameProofs TextProofs ProcProofs ProcSpec.
Close Scope string_scope.

(* ---- names ---- *)
Lemma no_digit_number s pre ds post : no_digits s -> s = pre ++ ds ++ post -> ds <> [] -> digits ds -> False.
Proof.
  intros H -> N D. destruct ds as [|c ds]; [congruence|]. inversion D; subst.
  apply Forall_app in H as [_ H]. apply Forall_app in H as [H _]. inversion H; subst. congruence.
Qed.
Lemma dotted_number r ds : no_digits r -> ds <> [] -> digits ds ->
  last_number (r ++ [ch 46] ++ ds) (r ++ [ch 46]) ds [].
Proof.
  intros H N D. split; [rewrite app_nil_r, <- app_assoc; reflexivity|]. split; [exact N|]. split; [exact D|].
  split; [constructor|]. intros p c E. apply app_inj_tail in E as [_ <-]. reflexivity.
Qed.
(* n and n' belong to r, n' belongs to r', n does not: then r = n and n' is n with a counter *)
Lemma family r r' n n' : same_name r n -> same_name r n' -> same_name r' n' -> ~ same_name r' n ->
  n = r /\ exists ds, ds <> [] /\ n' = r ++ [ch 46] ++ ds.
Proof.
  intros Hn Hn' H' Hno.
  destruct (number_cases r) as [R | (a & d & b & R)].
  - (* r without digits *)
    assert (Cn : n = r \/ exists ds, ds <> [] /\ digits ds /\ n = r ++ [ch 46] ++ ds).
    { destruct Hn as [[_ ->]|[[_ K]|(p & d & q & d' & L & _)]]; [now left|now right|].
      exfalso. now apply (last_number_some _ _ _ _ L). }
    assert (Cn' : n' = r \/ exists ds, ds <> [] /\ digits ds /\ n' = r ++ [ch 46] ++ ds).
    { destruct Hn' as [[_ ->]|[[_ K]|(p & d & q & d' & L & _)]]; [now left|now right|].
      exfalso. now apply (last_number_some _ _ _ _ L). }
    destruct H' as [[R' ->]|[[R' (ds & N & D & ->)]|(p & d & q & d' & L & N & D & ->)]].
    + (* n' = r' *)
      destruct Cn' as [->|(ds & N & D & E)]; [contradiction|].
      exfalso. apply (no_digit_number r' (r ++ [ch 46]) ds []); auto. now rewrite app_nil_r, <- app_assoc.
    + destruct Cn' as [E|(ds' & N' & D' & E)].
      * exfalso. apply (no_digit_number r (r' ++ [ch 46]) ds []); auto. now rewrite app_nil_r, <- app_assoc.
      * pose proof (dotted_number r' ds R' N D) as L1. rewrite E in L1.
        pose proof (dotted_number r ds' R N' D') as L2.
        destruct (last_number_fun _ _ _ _ _ _ _ L1 L2) as (P & _ & _). apply app_inj_tail in P as [-> _]. contradiction.
    + assert (L0 : last_number (p ++ d' ++ q) p d' q) by now apply (last_number_replace _ d _ r').
      destruct Cn' as [E|(ds' & N' & D' & E)].
      * exfalso. now apply (no_digit_number r p d' q).
      * rewrite E in L0. pose proof (dotted_number r ds' R N' D') as L2.
        destruct (last_number_fun _ _ _ _ _ _ _ L0 L2) as (-> & -> & ->).
        destruct Cn as [->|(ds & N1 & D1 & ->)]; [split; [reflexivity|]; exists ds'; now split|].
        exfalso. apply Hno. right. right. exists (r ++ [ch 46]), d, [], ds. split; [exact L|]. split; [exact N1|].
        split; [exact D1|]. now rewrite app_nil_r, <- app_assoc.
  - (* r with a number *)
    exfalso.
    assert (Cn : exists ds, ds <> [] /\ digits ds /\ n = a ++ ds ++ b).
    { destruct Hn as [[K _]|[[K _]|(p & d0 & q & d' & L & N & D & ->)]];
        try (exfalso; now apply (last_number_some _ _ _ _ R)).
      destruct (last_number_fun _ _ _ _ _ _ _ L R) as (-> & _ & ->). exists d'. now split. }
    assert (Cn' : exists ds, ds <> [] /\ digits ds /\ n' = a ++ ds ++ b).
    { destruct Hn' as [[K _]|[[K _]|(p & d0 & q & d' & L & N & D & ->)]];
        try (exfalso; now apply (last_number_some _ _ _ _ R)).
      destruct (last_number_fun _ _ _ _ _ _ _ L R) as (-> & _ & ->). exists d'. now split. }
    destruct Cn as (d1 & N1 & D1 & ->), Cn' as (d2 & N2 & D2 & ->).
    assert (L2 : last_number (a ++ d2 ++ b) a d2 b) by now apply (last_number_replace _ d _ r).
    destruct H' as [[R' E]|[[R' (ds & N & D & E)]|(p & d0 & q & d' & L & N & D & E)]].
    + rewrite <- E in R'. now apply (no_digit_number (a ++ d2 ++ b) a d2 b).
    + pose proof (dotted_number r' ds R' N D) as L1. rewrite <- E in L1.
      destruct (last_number_fun _ _ _ _ _ _ _ L1 L2) as (<- & _ & <-).
      apply Hno. right. left. split; [exact R'|]. exists d1. split; [exact N1|]. split; [exact D1|].
      now rewrite app_nil_r, <- app_assoc.
    + assert (L0 : last_number (p ++ d' ++ q) p d' q) by now apply (last_number_replace _ d0 _ r').
      rewrite <- E in L0. destruct (last_number_fun _ _ _ _ _ _ _ L0 L2) as (-> & _ & ->).
      apply Hno. right. right. exists a, d0, b, d1. now split.
Qed.

Lemma same_name_newline name s : same_name name s -> ~ In newline name -> ~ In newline s.
Proof.
  assert (Dn : forall ds, digits ds -> ~ In newline ds).
  { intros ds D I. unfold digits in D. rewrite Forall_forall in D. apply D in I. discriminate I. }
  intros [[_ ->]|[[_ (ds & _ & D & ->)]|(p & d & q & d' & (-> & _) & _ & D & ->)]] N; [exact N| |].
  - intros I. apply in_app_iff in I as [I|[I|I]]; [now apply N|discriminate I|now apply (Dn ds D)].
  - intros I. apply in_app_iff in I as [I|I]; [apply N, in_app_iff; now left|].
    apply in_app_iff in I as [I|I]; [now apply (Dn d' D)|]. apply N, in_app_iff. right. apply in_app_iff. now right.
Qed.
Lemma good_match_plain name s : name <> [] -> ~ In newline s -> good_match name s -> same_name name s.
Proof.
  intros N M [->|[H|(t & -> & _)]]; [congruence|exact H|].
  exfalso. apply M, in_app_iff. right. now left.
Qed.

(* ---- the first hit is the least ---- *)
Section Md5.
Context (md5 : string -> string) (rt : pyval -> pyval) (e : chars).

Lemma processes_sorted g : keys_sorted (g_kids g) ->
  StronglySorted (fun x y => chars_ltb (snd (fst x)) (snd (fst y)) = true) (processes e g).
Proof.
  unfold processes. induction (g_kids g) as [|[n x] l IH]; intros S; [constructor|].
  apply sorted_cons in S as [S F]. cbn [flat_map]. destruct x as [p|]; [|now apply IH]. cbn [app fst snd].
  constructor; [now apply IH|]. apply Forall_forall. intros [[e' n'] p'] I. cbn.
  apply (processes_in e (mkGroup CEntry l)) in I as [_ I]. now apply F in I.
Qed.

Definition least (f : file) (name : chars) (sum : string) (n : chars) : Prop :=
  (exists p, member f e n (Proc p) /\ hit md5 name sum (e, n, p)) /\
  forall n' p', member f e n' (Proc p') -> hit md5 name sum (e, n', p') -> n' = n \/ chars_ltb n n' = true.

Lemma sorted_split (l1 l2 : list (chars * chars * proc)) x :
  StronglySorted (fun x y => chars_ltb (snd (fst x)) (snd (fst y)) = true) (l1 ++ x :: l2) ->
  forall y, In y l2 -> chars_ltb (snd (fst x)) (snd (fst y)) = true.
Proof.
  induction l1 as [|z l1 IH]; cbn [app]; intros S y I; inversion S as [|? ? S' F]; subst.
  - rewrite Forall_forall in F. now apply F.
  - now apply IH.
Qed.

Lemma iter_local f g : keys_sorted f -> In (e, g) f -> g_cls g = CEntry -> iter_processes f (Some e) false = processes e g.
Proof.
  intros S I C. unfold iter_processes, first_entry. rewrite (proj2 (lookup_in e g f S) I).
  apply is_entry_spec in C. now rewrite C.
Qed.
Lemma find_least f name deps params sum n : wf f -> entry f e -> calc_checksum md5 deps params = Ok sum ->
  (find_nxprocess md5 f (Some e) name deps params false = Some (Ok (Some (e, n))) <-> least f name sum n).
Proof.
  intros W (g & I & C) Sm. unfold find_nxprocess. rewrite Sm, (iter_local f g (proj1 W) I C).
  assert (S := processes_sorted g (proj1 (proj2 W e g I))).
  assert (Mem : forall n p, In (e, n, p) (processes e g) <-> member f e n (Proc p)).
  { intros n0 p. rewrite processes_in. split.
    - intros [_ J]. now exists g.
    - intros (g' & J & K). split; [reflexivity|]. now rewrite (sorted_fun f e g g' (proj1 W) I J). }
  destruct (find_in_spec md5 name sum (processes e g)) as (o & E & H). rewrite E. clear E.
  assert (First : forall e0 n0, o = Some (e0, n0) -> e0 = e /\ least f name sum n0).
  { intros e0 n0 ->. destruct H as (p & l1 & l2 & El & Hp & Hl).
    assert (J : In (e0, n0, p) (processes e g)) by (rewrite El; apply in_elt).
    assert (e0 = e) as -> by (apply processes_in in J; apply J). split; [reflexivity|].
    split; [exists p; split; [now apply Mem|exact Hp]|].
    intros n' p' M Hh. apply Mem in M. rewrite El in M. apply in_app_iff in M as [M|[M|M]].
    - exfalso. now apply (Hl _ M).
    - injection M as -> ->. now left.
    - right. rewrite El in S. now apply (sorted_split l1 l2 (e, n0, p) S (e, n', p')). }
  split.
  - intros [= ->]. now apply (First e n).
  - intros [(p & M & Hp) Hmin]. destruct o as [[e0 n0]|].
    + destruct (First e0 n0 eq_refl) as (-> & (p0 & M0 & H0) & Hmin0). do 4 f_equal.
      destruct (Hmin n0 p0 M0 H0) as [->|L]; [reflexivity|].
      destruct (Hmin0 n p M Hp) as [->|L']; [reflexivity|].
      pose proof (ltb_trans _ _ _ L L') as T. now rewrite ltb_irrefl in T.
    + exfalso. apply (H (e, n, p)); [now apply Mem|exact Hp].
Qed.

(* one more request changes nothing *)
Definition quiet_names (f : file) : Prop := forall n x, member f e n x -> ~ In newline n.

Lemma local_error f r f' x : wf f -> entry f e -> local_request e md5 rt r ->
  serve md5 rt f r = Some (f', Err x) -> f' = f.
Proof.
  intros W (g & I & C) (H1 & H2 & H3 & H4 & H5) H. unfold serve in H. rewrite H1, H2 in H. unfold nxprocess in H.
  destruct (find_nxprocess md5 f (Some e) (r_name r) (r_deps r) (r_params r) false) as [[[loc|]|y]|] eqn:F;
    try congruence.
  unfold nxentry, first_entry in H. rewrite (proj2 (lookup_in e g f (proj1 W)) I) in H.
  pose proof C as C'. apply is_entry_spec in C'. rewrite C' in H.
  rewrite (proj2 (lookup_in e g f (proj1 W)) I) in H.
  destruct (new_path g (r_name r) (r_noincr r)) as [[n|y]|]; try congruence.
  exfalso. unfold find_nxprocess in F. destruct (calc_checksum md5 (r_deps r) (r_params r)) as [sum|y] eqn:Sm; [|discriminate].
  destruct (set_config_stable md5 rt (r_deps r) (r_params r) sum H5 Sm) as (h & Sc). rewrite Sc in H. discriminate.
Qed.

Lemma local_step f r f' res name sum n : wf f -> entry f e -> quiet_names f -> local_request e md5 rt r ->
  name <> [] -> ~ In newline name ->
  serve md5 rt f r = Some (f', res) -> least f name sum n ->
  wf f' /\ entry f' e /\ quiet_names f' /\ least f' name sum n.
Proof.
  intros W E Q Lr Nn Nl H Hl. destruct res as [[e1 n1]|x].
  2:{ rewrite (local_error f r f' x W E Lr H). exact (conj W (conj E (conj Q Hl))). }
  pose proof Lr as (H1 & H2 & H3 & H4 & H5).
  unfold serve in H. rewrite H1, H2 in H.
  destruct (nxprocess_cases md5 rt _ _ _ _ _ _ _ _ _ W H3 H) as (W' & X & K).
  destruct K as (sum1 & C & [[-> F]|(NH & U & Nn1 & Sn & Hh & NP & p & Sc & M & En)]).
  { exact (conj W (conj E (conj Q Hl))). }
  rewrite (Hh e eq_refl) in *. clear Hh.
  split; [exact W'|]. split; [apply En; now left|]. split.
  { intros n0 x I. apply M in I as [(_ & -> & _)|I]; [|now apply (Q n0 x)]. now apply (same_name_newline (r_name r)). }
  destruct (set_config_stable md5 rt (r_deps r) (r_params r) sum1 H5 C) as (h & Sc'). rewrite Sc' in Sc.
  injection Sc as <-.
  destruct Hl as [(q & Mq & Hq) Hmin]. split.
  - exists q. split; [apply M; now right|exact Hq].
  - intros n' p' I Hp. apply M in I as [(_ & -> & [= ->])|I]; [|now apply (Hmin n' p')].
    destruct Hp as [Hp1 Hp2]. cbn in Hp1, Hp2. unfold good_sum in Hp2. cbn in Hp2. injection Hp2 as ->.
    assert (No : ~ same_name (r_name r) n).
    { intros B. apply (NH (e, n, q)).
      - apply iter_in; [exact W|]. split; [|exact Mq]. split; [exact E|]. now intros _ h' [= <-].
      - split; [right; now left|]. apply Hq. }
    assert (A1 : same_name name n) by (apply good_match_plain; [exact Nn|now apply (Q n (Proc q))|apply Hq]).
    assert (A2 : same_name name n1).
    { apply good_match_plain; [exact Nn| |exact Hp1]. now apply (same_name_newline (r_name r)). }
    destruct (family name (r_name r) n n1 A1 A2 Sn No) as (-> & ds & Nd & ->). right. apply ltb_app.
Qed.

Lemma history f r f1 loc rs f2 : wf f -> entry f e -> quiet_names f -> local_request e md5 rt r ->
  Forall (local_request e md5 rt) rs ->
  serve md5 rt f r = Some (f1, Ok loc) -> serve_all md5 rt f1 rs = Some f2 ->
  serve md5 rt f2 r = Some (f2, Ok loc).
Proof.
  intros W E Q Lr Lrs H HA. destruct loc as [e' n].
  pose proof Lr as (H1 & H2 & H3 & H4 & H5).
  assert (H' : nxprocess md5 rt f (Some e) (r_name r) (r_deps r) (r_params r) false (r_noincr r) = Some (f1, Ok (e', n))).
  { unfold serve in H. now rewrite H1, H2 in H. }
  destruct (nxprocess_cases md5 rt _ _ _ _ _ _ _ _ _ W H3 H') as (W1 & X & K).
  assert (Inv1 : exists sum, calc_checksum md5 (r_deps r) (r_params r) = Ok sum /\ e' = e /\ entry f1 e /\ quiet_names f1 /\ least f1 (r_name r) sum n).
  { pose proof (nxprocess_again md5 rt _ _ _ _ _ _ _ _ _ W H3 H5 H' (r_noincr r)) as Ag.
    destruct (nxprocess_cases md5 rt _ _ _ _ _ _ _ _ _ W1 H3 Ag) as (_ & _ & sum & C & K2).
    exists sum. split; [exact C|].
    assert (P : e' = e /\ entry f1 e /\ quiet_names f1).
    { destruct K as (sum' & C' & [[-> F]|(NH & U & Nn1 & Sn & Hh & NP & p & Sc & M & En)]).
      - split; [|now split]. unfold find_nxprocess in F. rewrite C in F. destruct E as (g & I & Cg).
        rewrite (iter_local f g (proj1 W) I Cg) in F.
        destruct (find_in_spec md5 (r_name r) sum (processes e g)) as (o & Eo & So). rewrite Eo in F. injection F as ->.
        destruct So as (p & l1 & l2 & El & _). assert (J : In (e', n, p) (processes e g)) by (rewrite El; apply in_elt).
        now apply processes_in in J as [-> _].
      - rewrite (Hh e eq_refl) in *. split; [reflexivity|]. split; [apply En; now right|].
        intros n0 x I. apply M in I as [(_ & -> & _)|I]; [|now apply (Q n0 x)]. now apply (same_name_newline (r_name r)). }
    destruct P as (-> & E1 & Q1). split; [reflexivity|]. split; [exact E1|]. split; [exact Q1|].
    apply (find_least f1 (r_name r) (r_deps r) (r_params r) sum n W1 E1 C).
    destruct K2 as [[_ F]|(_ & U & _ & _ & _ & _ & p & _ & M & _)]; [exact F|].
    exfalso. apply (U (Proc p)). apply M. now left. }
  destruct Inv1 as (sum & C & -> & E1 & Q1 & L1). clear K X H H' W E Q f.
  revert f1 W1 E1 Q1 L1 HA. induction Lrs as [|r' rs Lr' Lrs IH]; intros f1 W1 E1 Q1 L1 HA; cbn [serve_all] in HA.
  - injection HA as <-. unfold serve. rewrite H1, H2. apply nxprocess_find.
    now apply (find_least f1 (r_name r) (r_deps r) (r_params r) sum n W1 E1 C).
  - destruct (serve md5 rt f1 r') as [[f1' res]|] eqn:S; [|discriminate].
    destruct (local_step f1 r' f1' res (r_name r) sum n W1 E1 Q1 Lr' (proj1 H3) H4 S L1) as (A & B & D & F).
    now apply (IH f1').
Qed.

End Md5.

(* every file reachable by requests contains all it contained before *)
Lemma serve_all_extends md5 rt f rs f' : wf f -> Forall (fun r => good_name (r_name r)) rs ->
  serve_all md5 rt f rs = Some f' -> wf f' /\ extends f f'.
Proof.
  intros W H. revert f W. induction H as [|r rs Hr Hrs IH]; intros f W S; cbn [serve_all] in S.
  - injection S as <-. split; [exact W|now intros ? ? ?].
  - destruct (serve md5 rt f r) as [[f1 res]|] eqn:E; [|discriminate].
    destruct (nxprocess_cases md5 rt _ _ _ _ _ _ _ _ _ W Hr E) as (W1 & X & _).
    destruct (IH f1 W1 S) as (W2 & X2). split; [exact W2|]. intros e n x I. now apply X2, X.
Qed.

(* ---- checksums ---- *)
Lemma merge_inj md5 h deps h' deps' s : hexlike md5 ->
  (deps <> [] /\ deps' <> [] \/ deps = [] /\ deps' = []) ->
  injective_on md5 (digest_inputs md5 (PSeq KTuple (map (PStr true) (deps ++ [h]))) ++
                    digest_inputs md5 (PSeq KTuple (map (PStr true) (deps' ++ [h'])))) ->
  mergehash md5 (deps ++ [h]) = Ok s -> mergehash md5 (deps' ++ [h']) = Ok s -> deps = deps' /\ h = h'.
Proof.
  intros Hx C Inj H H'.
  assert (Multi : forall (d : list string) k, d <> [] -> mergehash md5 (d ++ [k]) = calchash md5 0 (PSeq KTuple (map (PStr true) (d ++ [k])))).
  { intros d k N. destruct d as [|x [|y d]]; [congruence|reflexivity|reflexivity]. }
  destruct C as [[N N']|[-> ->]].
  2:{ cbn in H, H'. split; [reflexivity|congruence]. }
  rewrite Multi in H, H' by assumption.
  assert (O : forall l, ordered (PSeq KTuple (map (PStr true) l))).
  { intros l. cbn. induction l; cbn; auto. }
  pose proof (calchash_ordered_injective md5 Hx _ _ s (O _) (O _) Inj H H') as Fl.
  assert (Fv : forall l, l <> [] -> flatval (PSeq KTuple (map (PStr true) l)) = FNode (map FStr l)).
  { intros [|x l] Nl; [congruence|]. cbn. rewrite map_map. reflexivity. }
  rewrite !Fv in Fl by (intros F; apply app_eq_nil in F as [_ F]; discriminate F).
  injection Fl as Fl.
  assert (E : deps ++ [h] = deps' ++ [h']).
  { clear -Fl. revert Fl. generalize (deps ++ [h]) as a. generalize (deps' ++ [h']) as b.
    intros b a. revert b. induction a as [|x a IH]; intros [|y b]; cbn; intros E; try discriminate; [reflexivity|].
    injection E as -> E. f_equal. now apply IH. }
  now apply app_inj_tail in E.
Qed.

(* ---- occupied names ---- *)
Lemma nxprocess_occupied md5 rt f e name deps params all noincr sum x : wf f -> entry f e -> name <> [] ->
  calc_checksum md5 deps params = Ok sum -> member f e name x ->
  (noincr = true \/ x = Other) ->
  (forall e' n' p', in_scope f (Some e) all e' -> member f e' n' (Proc p') -> good_sum md5 p' sum -> ~ good_match name n') ->
  nxprocess md5 rt f (Some e) name deps params all noincr = Some (f, Err AlreadyExists).
Proof.
  intros W (g & I & C) N Sm (g' & I' & J) O H. unfold nxprocess, find_nxprocess. rewrite Sm.
  destruct (find_in_spec md5 name sum (iter_processes f (Some e) all)) as (o & -> & So).
  destruct o as [[e' n']|].
  { exfalso. destruct So as (p & l1 & l2 & El & [H1 H2] & _).
    assert (K : In (e', n', p) (iter_processes f (Some e) all)) by (rewrite El; apply in_elt).
    apply (iter_in f (Some e) all e' n' p W) in K as [K1 K2]. now apply (H e' n' p). }
  unfold nxentry, first_entry. rewrite (proj2 (lookup_in e g f (proj1 W)) I).
  pose proof C as C'. apply is_entry_spec in C'. rewrite C'.
  rewrite (proj2 (lookup_in e g f (proj1 W)) I).
  rewrite (sorted_fun f e g' g (proj1 W) I' I) in J.
  pose proof (proj2 (lookup_in name x (g_kids g) (proj1 (proj2 W e g I))) J) as L.
  unfold new_path, kid_exists, kid_is_proc. destruct name as [|c name]; [congruence|]. rewrite L.
  destruct O as [E | E]; rewrite E; [reflexivity|]. cbn. now rewrite orb_true_r.
Qed.

(* ---- storing the parameters changes their hash ---- *)
Lemma unstable_twice md5 rt v h h' : calchash md5 0 v = Ok h -> calchash md5 0 (rt v) = Ok h' -> h <> h' ->
  exists f1 f2,
    nxprocess md5 rt [] (Some (txt "entry")) (txt "fit") [] v true false = Some (f1, Ok (txt "entry", txt "fit")) /\
    nxprocess md5 rt f1 (Some (txt "entry")) (txt "fit") [] v true false = Some (f2, Ok (txt "entry", txt "fit.1")).
Proof.
  intros H H' N.
  assert (E : String.eqb h' h = false) by (apply String.eqb_neq; congruence).
  exists [(txt "entry", mkGroup CEntry [(txt "fit", Proc (mkProc (Some h') [] (Some h') []))])].
  eexists. split.
  - unfold nxprocess, find_nxprocess, calc_checksum. rewrite H. cbn [bind app mergehash iter_processes find_in all_processes flat_map].
    unfold set_config. rewrite H'. vm_compute. reflexivity.
  - unfold nxprocess, find_nxprocess, calc_checksum. rewrite H. cbn [bind app mergehash].
    change (iter_processes [(txt "entry", mkGroup CEntry [(txt "fit", Proc (mkProc (Some h') [] (Some h') []))])] (Some (txt "entry")) true)
      with [(txt "entry", txt "fit", mkProc (Some h') [] (Some h') [])].
    cbn [find_in].
    assert (M : name_matches (txt "fit") (txt "fit") = Some true) by (vm_compute; reflexivity). rewrite M.
    unfold has_checksum, proc_checksum. cbn [p_stored]. rewrite E.
    unfold set_config. rewrite H'. vm_compute. reflexivity.
Qed.

Lemma checksum_collision md5 d params h : calchash md5 0 params = Ok h ->
  calc_checksum md5 [d] params = calc_checksum md5 [] (PMap false [(PStr true d, PStr true h)]).
Proof. intros H. unfold calc_checksum. rewrite H. reflexivity. Qed.

Lemma calc_checksum_inj md5 params h deps params' h' deps' s : hexlike md5 ->
  (deps <> [] /\ deps' <> [] \/ deps = [] /\ deps' = []) ->
  calchash md5 0 params = Ok h -> calchash md5 0 params' = Ok h' ->
  injective_on md5 (digest_inputs md5 (PSeq KTuple (map (PStr true) (deps ++ [h]))) ++
                    digest_inputs md5 (PSeq KTuple (map (PStr true) (deps' ++ [h'])))) ->
  calc_checksum md5 deps params = Ok s -> calc_checksum md5 deps' params' = Ok s -> deps = deps' /\ h = h'.
Proof.
  unfold calc_checksum. intros Hx C -> -> I H H'. now apply (merge_inj md5 h deps h' deps' s).
Qed.

(* another digest for the examples: a polynomial in the character codes *)
Definition poly (s : string) : Z :=
  fold_left (fun v c => (131 * v + Z.of_nat (nat_of_ascii c)) mod 100000000000000000039) (list_ascii_of_string s) 7.
Definition toy_digest (s : string) : string := String "h" (pad32 (str_of_Z (poly s))).
Lemma toy_digest_hexlike : hexlike toy_digest.
Proof.
  intros s. split; [|discriminate]. unfold toy_digest, pad32. cbn [String.length]. f_equal.
  apply substring_len. rewrite append_length. cbn. lia.
Qed.

(* ---- a request at the root ---- *)
Lemma last_nxentry_none f : last_nxentry f = None -> forall e g, In (e, g) f -> g_cls g <> CEntry.
Proof.
  unfold last_nxentry.
  assert (K : forall (l : file) acc, fold_left (fun acc eg => if is_entry (snd eg) then Some (fst eg) else acc) l acc = None ->
     acc = None /\ forall e g, In (e, g) l -> g_cls g <> CEntry).
  { induction l as [|[k g] l IH]; intros acc H; [split; [exact H|intros ? ? []]|]. cbn in H.
    apply IH in H as [H H2]. destruct (is_entry g) eqn:E; [discriminate|]. split; [exact H|].
    intros e g' [[= <- <-]|I]; [|now apply H2 in I]. intros C. apply is_entry_spec in C. congruence. }
  intros H. now apply (K f None).
Qed.
Lemma last_nxentry_entry f e : last_nxentry f = Some e -> entry f e.
Proof.
  unfold last_nxentry.
  assert (K : forall (fl : file) acc, (forall x, In x fl -> In x f) ->
    fold_left (fun acc eg => if is_entry (snd eg) then Some (fst eg) else acc) fl acc = Some e ->
    acc = Some e \/ entry f e).
  { induction fl as [|[k g] fl IH]; intros acc In0 H; [now left|]. cbn in H.
    apply IH in H as [H|H]; [|now right|intros x I; apply In0; now right].
    destruct (is_entry g) eqn:Eg; [|now left]. injection H as <-. right. exists g.
    split; [apply In0; now left|now apply is_entry_spec]. }
  intros H. destruct (K f None (fun x i => i) H) as [Q|Q]; [discriminate|exact Q].
Qed.
Lemma root_entry f f1 e : wf f -> (forall e, entry f e -> no_braces e) ->
  nxentry f None = Some (Ok (f1, e)) -> ~ entry f e /\ entry f1 e.
Proof.
  intros W B H. destruct (nxentry_spec f None f1 e W H) as (_ & E1 & _). split; [|exact E1].
  unfold nxentry in H. cbn [first_entry] in H. unfold next_nxentry_name in H.
  destruct (last_nxentry f) as [l|] eqn:L.
  - destruct (first_free_ok (root_exists f) l ([] :: map fst f) (S (S (length f))) (B l (last_nxentry_entry f l L)) (root_finite f))
      as (m & k & s & E & E2 & _ & Q & X & _); [cbn; rewrite map_length; lia|].
    rewrite E, E2 in H. injection H as H. destruct (init_entry_spec f s f1 e W H) as (_ & -> & _).
    intros (g & I & C). destruct s as [|c s]; [now apply (nth_nonempty l k)|]. cbn [root_exists] in X.
    rewrite (proj2 (lookup_in _ g f (proj1 W)) I) in X. discriminate.
  - injection H as H. intros (g & I & C). now apply (last_nxentry_none f L e g).
Qed.
