(* The properties of tasks from the invariant. *)
From Coq Require Import String.
From Verif Require Import TextProofs NameProofs ProcProofs ProcHistProofs TaskBaseProofs TaskProofs TaskSpec.
Close Scope string_scope.

Lemma ready_done t f : ready t f -> deps_done t f = true.
Proof. intros H. apply forallb_forall. exact H. Qed.

Section Top.
Context (md5 : string -> string) (rt : pyval -> pyval) (t : task).
Notation e := (t_entry t).

Lemma not_ready randoms w o d : In d (t_deps t) -> d_done d (w_file w) = false ->
  run md5 rt t randoms w o = Some (w, o, NotExecuted).
Proof.
  intros I H. unfold run. assert (E : deps_done t (w_file w) = false); [|now rewrite E].
  destruct (deps_done t (w_file w)) eqn:D; [|reflexivity]. unfold deps_done in D. rewrite forallb_forall in D.
  apply D in I. congruence.
Qed.

Lemma stale randoms f tg : ready t f ->
  exists o, run md5 rt t randoms (start f []) (mkObj tg true) = Some (start f [], o, AlreadyDone).
Proof.
  intros R. unfold run. cbn [w_file start]. rewrite (ready_done t f R). unfold tick. cbn [w_env start w_file].
  eexists. reflexivity.
Qed.
Lemma unpack f : good_task md5 rt t -> good_file md5 t f ->
  exists sum fam, calc_checksum md5 (map d_sum (t_deps t)) (t_params t) = Ok sum /\ first_name t fam /\
    names_ok (kids e f).
Proof.
  intros (B & _ & _ & sum & Hs) (W & E & N & _). destruct (new_Name_0 (t_name t) B) as (fam & Hf & _).
  exists sum, fam. split; [exact Hs|]. split; [unfold first_name; now rewrite prepare_name|].
  intros n x I. apply (N n x). apply (member_0 t f W E). left. now split.
Qed.
Lemma unused_kids f r : wf f -> entry f e -> unused f e r -> forall x, ~ In (r, x) (kids e f).
Proof. intros W E U x I. apply (U x). apply (member_0 t f W E). left. now split. Qed.

Lemma already_done f randoms : good_task md5 rt t -> good_file md5 t f -> ready t f -> (exists n p, is_output md5 t f n p) ->
  exists o, run md5 rt t randoms (start f []) (new_obj t) = Some (start f [], o, AlreadyDone).
Proof.
  intros GT GF R O. destruct (unpack f GT GF) as (sum & fam & Hs & Hf & G0).
  pose proof GT as (B & Nt & _). pose proof GF as (W & E & N & C0).
  unfold run. cbn [w_file start]. rewrite (ready_done t f R). unfold tick. cbn [w_env start w_file].
  pose proof (K0_sorted t f W E) as S.
  destruct (exists_spec md5 t f W E sum fam Hs Hf B (kids e f) (new_obj t) S G0 (tgt_new t fam Hf B) eq_refl)
    as (b & o' & Ex & _ & _ & H).
  rewrite (F_0 t f W E) in Ex. rewrite Ex.
  assert (b = true) as ->; [|now exists o'].
  apply H, (done_output md5 t f W E sum fam Hs Hf B (kids e f) G0). rewrite (F_0 t f W E). exact O.
Qed.

Definition task_outcome : outcome := match t_default t with Some x => Raised x | None => Finished end.

Section Setting.
Context (f : file) (env : list (list (chars * node))) (randoms : list chars).
Context (GS : good_setting md5 rt t f env randoms) (Rd : ready t f).

Lemma run_top : exists w' o' oc,
  run md5 rt t randoms (start f env) (new_obj t) = Some (w', o', oc) /\
  Forall (all_complete md5 t) (w_hist w') /\ extends f (w_file w') /\ wf (w_file w') /\
  ((oc = AlreadyDone /\ grown e f env (w_file w') /\ exists n p, is_output md5 t (w_file w') n p) \/
   (oc = task_outcome /\ t_fail t = NoFailure /\
    exists n p, is_output md5 t (w_file w') n p /\ complete t p /\
      forall e' n' x, member (w_file w') e' n' x ->
        member f e' n' x \/ (e' = e /\ exists b, In b env /\ In (n', x) b) \/ (e' = e /\ n' = n /\ x = Proc p)) \/
   (oc = Finished /\ t_fail t <> NoFailure /\
    forall e' n' x, member (w_file w') e' n' x ->
        member f e' n' x \/ (e' = e /\ exists b, In b env /\ In (n', x) b) \/
        (e' = e /\ goes_on t /\ In n' randoms /\ unused f e n' /\ x = Other))).
Proof.
  destruct GS as (GT & GF & GE & GR & (r0 & Ir0 & Ur0)). destruct (unpack f GT GF) as (sum & fam & Hs & Hf & G0).
  pose proof GT as (B & Nt & St & _). pose proof GF as (W & E & N & C0).
  pose proof (inv_start md5 t f env W E sum fam C0) as V0.
  destruct (run_spec md5 rt t f env W E sum fam Hs Hf B Nt G0 C0 GE St randoms _ _ (new_obj t) V0 (tgt_new t fam Hf B) eq_refl
              (ready_done t f Rd) GR (ex_intro _ r0 (conj Ir0 (unused_kids f r0 W E Ur0))))
    as (K1 & V1 & _ & w' & o' & K' & oc & Er & H).
  exists w', o', oc. split; [exact Er|].
  assert (Out : forall w K T, inv md5 t f env sum fam w K T -> done md5 sum fam K -> exists n p, is_output md5 t (w_file w) n p).
  { intros w K T V D. pose proof V as (-> & _). 
    apply (done_output md5 t f W E sum fam Hs Hf B K); [|exact D]. exact (inv_names md5 t f env sum fam G0 GE w K T V). }
  assert (Wf : forall w K T, inv md5 t f env sum fam w K T -> Forall (all_complete md5 t) (w_hist w) /\ extends f (w_file w) /\ wf (w_file w)).
  { intros w K T V. pose proof V as (Q1 & Q2 & _ & _ & Q3 & _). split; [exact Q3|].
    split; [exact (inv_extends md5 t f env W E sum fam w K T V)|]. rewrite Q1. now apply F_wf. }
  assert (Mem := fun w K T V => inv_members md5 t f env W E sum fam w K T V).
  destruct H as [(D1 & -> & -> & -> & _)|[(ND & _ & Ft & -> & H)|(ND & _ & Ft & -> & _ & T & V & HT)]].
  - destruct (Wf _ _ _ V1) as (A1 & A2 & A3). split; [exact A1|]. split; [exact A2|]. split; [exact A3|].
    left. split; [reflexivity|]. split; [|exact (Out _ _ _ V1 D1)]. split; [exact A2|].
    intros e' n x M. destruct (Mem _ _ _ V1 e' n x M) as [Q|[[-> Q]|[_ Q]]]; [now left|right; now split|discriminate].
  - destruct H as [(n & h & V & O & Fr & L)|(V & D & G)].
    + destruct (Wf _ _ _ V) as (A1 & A2 & A3). split; [exact A1|]. split; [exact A2|]. split; [exact A3|].
      right. left. split; [reflexivity|]. split; [exact Ft|]. exists n, (tempproc t sum h (t_chunks t)). split.
      * pose proof V as (-> & _ & _ & _ & _ & HT & _). destruct (HT _ eq_refl) as (I & _ & Nl & _).
        apply (output_iff md5 t f W E sum fam Hs Hf B); [exact Nl|]. split; [exact I|exact O].
      * split; [reflexivity|]. intros e' n' x M.
        destruct (Mem _ _ _ V e' n' x M) as [Q|[[-> Q]|[-> [= <- <-]]]]; [now left|right; left; now split|right; right; now repeat split].
    + destruct (Wf _ _ _ V) as (A1 & A2 & A3). split; [exact A1|]. split; [exact A2|]. split; [exact A3|].
      right. left. split; [reflexivity|]. split; [exact Ft|]. destruct (Out _ _ _ V D) as (n & p & O). exists n, p.
      split; [exact O|]. split.
      * apply (inv_complete md5 t f env W E sum fam Hs Hf B G0 C0 GE w' K' None V n p). pose proof V as (<- & _). exact O.
      * intros e' n' x M. destruct (Mem _ _ _ V e' n' x M) as [Q|[[-> Q]|[_ Q]]]; [now left|right; left; now split|discriminate].
  - destruct (Wf _ _ _ V) as (A1 & A2 & A3). split; [exact A1|]. split; [exact A2|]. split; [exact A3|].
    right. right. split; [reflexivity|]. split; [exact Ft|]. intros e' n x M.
    destruct (Mem _ _ _ V e' n x M) as [Q|[[-> Q]|[-> Q]]]; [now left|right; left; now split|]. subst T.
    destruct HT as [Z|(C & r & I & U & [= -> ->])]; [discriminate|]. right. right.
    split; [reflexivity|]. split; [exact C|]. split; [exact I|]. split; [|reflexivity].
    intros y Q. apply (member_0 t f W E) in Q as [[_ Q]|[Q _]]; [exact (U y Q)|congruence].
Qed.
End Setting.

(* nobody else: the file is as before, and running again changes nothing *)
Lemma run_alone f randoms : good_setting md5 rt t f [] randoms -> ready t f ->
  exists w' o' oc, run md5 rt t randoms (start f []) (new_obj t) = Some (w', o', oc) /\ w_env w' = [] /\
  ((t_fail t <> NoFailure /\ ~ goes_on t) -> w_file w' = f) /\
  (t_fail t = NoFailure -> (forall n p, ~ is_output md5 t f n p) -> exists n p, unused f e n /\ is_output md5 t (w_file w') n p) /\
  (t_fail t = NoFailure -> ready t (w_file w') -> forall randoms',
     exists o'', run md5 rt t randoms' w' o' = Some (w', o'', AlreadyDone)).
Proof.
  intros GS Rd. destruct GS as (GT & GF & GE & GR & (r0 & Ir0 & Ur0)). destruct (unpack f GT GF) as (sum & fam & Hs & Hf & G0).
  pose proof GT as (B & Nt & St & _). pose proof GF as (W & E & N & C0).
  pose proof (inv_start md5 t f [] W E sum fam C0) as V0.
  destruct (run_spec md5 rt t f [] W E sum fam Hs Hf B Nt G0 C0 GE St randoms _ _ (new_obj t) V0 (tgt_new t fam Hf B) eq_refl
              (ready_done t f Rd) GR (ex_intro _ r0 (conj Ir0 (unused_kids f r0 W E Ur0))))
    as (K1 & V1 & _ & w' & o' & K' & oc & Er & H).
  exists w', o', oc. split; [exact Er|].
  assert (Env : forall w K T, inv md5 t f [] sum fam w K T -> w_env w = []).
  { intros w K T (_ & _ & _ & Q & _). destruct (w_env w) as [|b l]; [reflexivity|]. destruct (Q b). now left. }
  assert (Again : forall w K T, inv md5 t f [] sum fam w K T -> done md5 sum fam K -> tgt fam o' -> ready t (w_file w) ->
     o_exists o' = false -> forall randoms', exists o'', run md5 rt t randoms' w o' = Some (w, o'', AlreadyDone)).
  { intros w K T V D G R X randoms'. pose proof V as (Ef & S & _). unfold run. rewrite (ready_done _ _ R).
    unfold tick. rewrite (Env _ _ _ V), Ef.
    destruct (exists_spec md5 t f W E sum fam Hs Hf B K o' S (inv_names md5 t f [] sum fam G0 GE w K T V) G X)
      as (b & o'' & Ex & _ & _ & H'). rewrite Ex. assert (b = true) as -> by now apply H'. now exists o''. }
  destruct H as [(D1 & -> & -> & -> & G & X)|[(ND & X & Ft & -> & H)|(ND & X & Ft & -> & G & T & V & HT)]].
  - split; [exact (Env _ _ _ V1)|]. destruct (inv_same md5 t f [] W E sum fam _ _ eq_refl V1) as [Q1 Q2].
    split; [intros _; exact Q1|]. split.
    + intros _ Z. exfalso. assert (O : exists n p, is_output md5 t (F t f K1) n p).
      { apply (done_output md5 t f W E sum fam Hs Hf B); [|exact D1]. now rewrite Q2. }
      destruct O as (n & p & O). rewrite Q2, (F_0 t f W E) in O. now apply (Z n p).
    + intros _ R randoms'. unfold run. rewrite (ready_done _ _ R). unfold tick at 1. rewrite (Env _ _ _ V1).
      unfold exists_. rewrite X. unfold tick at 1. rewrite (Env _ _ _ V1). now exists o'.
  - destruct H as [(n & h & V & O & Fr & L)|(V & D & G)].
    + split; [exact (Env _ _ _ V)|]. split; [now intros [Z _]|].
      pose proof V as (Ef & S & _ & _ & _ & HT & _). destruct (HT _ eq_refl) as (I & Nn & Nl & _). cbn [fst snd] in *.
      split.
      * intros _ _. exists n, (tempproc t sum h (t_chunks t)). split.
        -- intros y Q. apply (member_0 t f W E) in Q as [[_ Q]|[Q _]]; [exact (Fr y Q)|congruence].
        -- rewrite Ef. apply (output_iff md5 t f W E sum fam Hs Hf B); [exact Nl|]. split; [exact I|exact O].
      * intros _ R randoms'. eapply run_locked; [now apply ready_done|exact L|exact X|exact (Env _ _ _ V)|exact Nn| |].
        -- rewrite Ef. apply (F_member t f W E). left. split; [reflexivity|exact I].
        -- rewrite Ef. apply (F_wf t f W E K' S).
    + exfalso. destruct (inv_same md5 t f [] W E sum fam _ _ eq_refl V) as [_ ->].
      destruct (inv_same md5 t f [] W E sum fam _ _ eq_refl V1) as [_ ->]. now apply ND.
  - split; [exact (Env _ _ _ V)|]. split; [|split; intros Z; congruence].
    intros [_ NG]. destruct HT as [->|(C & _)]; [|now destruct NG].
    exact (proj1 (inv_same md5 t f [] W E sum fam _ _ eq_refl V)).
Qed.
Lemma again_new f randoms w' o' oc randoms' : good_setting md5 rt t f [] randoms -> ready t f -> t_fail t = NoFailure ->
  run md5 rt t randoms (start f []) (new_obj t) = Some (w', o', oc) -> ready t (w_file w') ->
  (exists o1, run md5 rt t randoms' w' o' = Some (w', o1, AlreadyDone)) /\
  (exists o2, run md5 rt t randoms' (start (w_file w') []) (new_obj t) = Some (start (w_file w') [], o2, AlreadyDone)).
Proof.
  intros GS Rd Ft Er R. destruct (run_alone f randoms GS Rd) as (w1 & o1 & oc1 & E1 & _ & _ & _ & A).
  rewrite Er in E1. injection E1 as <- <- <-. split; [exact (A Ft R randoms')|].
  destruct (run_top f [] randoms GS Rd) as (w1 & o1 & oc1 & E1 & Hc & X & Wf & H). rewrite Er in E1. injection E1 as <- <- <-.
  assert (O : exists n p, is_output md5 t (w_file w') n p).
  { destruct H as [(_ & _ & O)|[(_ & _ & n & p & O & _)|(_ & Z & _)]]; [exact O|now exists n, p|congruence]. }
  apply already_done; [apply GS| |exact R|exact O].
  destruct GS as (GT & GF & GE & GR & (r0 & Ir0 & Ur0)). destruct (unpack f GT GF) as (sum & fam & Hs & Hf & G0).
  pose proof GT as (B & Nt & St & _). pose proof GF as (W & E & N & C0).
  pose proof (inv_start md5 t f [] W E sum fam C0) as V0.
  destruct (run_spec md5 rt t f [] W E sum fam Hs Hf B Nt G0 C0 GE St randoms _ _ (new_obj t) V0 (tgt_new t fam Hf B) eq_refl
              (ready_done t f Rd) GR (ex_intro _ r0 (conj Ir0 (unused_kids f r0 W E Ur0))))
    as (K1 & V1 & _ & w2 & o2 & K' & oc2 & E2 & H2). rewrite Er in E2. injection E2 as <- <- <-.
  assert (V : exists T, inv md5 t f [] sum fam w' K' T).
  { destruct H2 as [(D1 & -> & -> & _)|[(_ & _ & _ & _ & [(n & h & V & _)|(V & _)])|(_ & _ & _ & _ & _ & T & V & _)]];
      [now exists None|eexists; exact V|now exists None|now exists T]. }
  destruct V as (T & V). pose proof V as (Ef & S & _).
  split; [exact Wf|]. split; [rewrite Ef; now apply F_entry|]. split.
  - intros n x M. rewrite Ef in M. apply (F_member t f W E) in M as [[_ M]|[M _]]; [|congruence].
    exact (inv_names md5 t f [] sum fam G0 GE _ _ _ V n x M).
  - rewrite Ef. exact (inv_complete md5 t f [] W E sum fam Hs Hf B G0 C0 GE _ _ _ V).
Qed.
End Top.
