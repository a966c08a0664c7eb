From Verif Require Import BaseProofs ClassFactoryModel ClassFactorySpec.
Local Open Scope string_scope.
Local Open Scope list_scope.

Lemma string_decides : decides_eq String.eqb.
Proof. intros x y. apply String.eqb_eq. Qed.

Lemma lookup_assign {V} s k (v : V) d :
  lookup String.eqb s (assign String.eqb k v d) = if String.eqb s k then Some v else lookup String.eqb s d.
Proof.
  destruct (String.eqb_spec s k) as [->|H].
  - apply (lookup_assign_same _ string_decides).
  - apply (lookup_assign_other _ string_decides). exact H.
Qed.

Lemma lookup_register_alias c d a s :
  lookup String.eqb s (register_alias c d a) =
  if String.eqb s a || String.eqb s (lower a) then Some c else lookup String.eqb s d.
Proof.
  unfold register_alias. destruct (String.eqb_spec (lower a) a) as [E|E].
  - rewrite lookup_assign, E. destruct (String.eqb s a); reflexivity.
  - rewrite !lookup_assign. destruct (String.eqb s (lower a)), (String.eqb s a); reflexivity.
Qed.

Lemma lookup_register_aliases c l : forall d s,
  lookup String.eqb s (fold_left (register_alias c) l d) =
  if existsb (fun a => String.eqb s a || String.eqb s (lower a)) l then Some c else lookup String.eqb s d.
Proof.
  induction l as [|a l IH]; intros d s; cbn [fold_left existsb]; [reflexivity|].
  rewrite IH, lookup_register_alias.
  destruct (existsb _ l), (String.eqb s a || String.eqb s (lower a)); reflexivity.
Qed.

Definition ab (s : string) (c : pycls) : bool :=
  (String.eqb s (lower (cname c)) && negb (String.eqb (lower (cname c)) (cname c))) ||
  existsb (fun a => String.eqb s a || String.eqb s (lower a)) (cls_aliases c).

Lemma register_alias_lookup r c s :
  lookup String.eqb s (aliasregistry (register r c)) =
  if ab s c then Some c else lookup String.eqb s (aliasregistry r).
Proof.
  unfold register, ab. cbn [aliasregistry]. rewrite lookup_register_aliases.
  destruct (existsb _ (cls_aliases c)); [rewrite orb_true_r; reflexivity|]. rewrite orb_false_r.
  destruct (String.eqb (lower (cname c)) (cname c)) eqn:E; cbn [negb].
  - rewrite andb_false_r. reflexivity.
  - rewrite andb_true_r, lookup_assign. reflexivity.
Qed.

Lemma register_name_lookup r c s :
  lookup String.eqb s (clsregistry (register r c)) =
  if String.eqb s (cname c) then Some c else lookup String.eqb s (clsregistry r).
Proof. unfold register. cbn [clsregistry]. apply lookup_assign. Qed.

Lemma create_alias_lookup r c s :
  lookup String.eqb s (aliasregistry (create_class r c)) =
  if ab s c then Some c else lookup String.eqb s (aliasregistry r).
Proof.
  destruct c; unfold create_class; rewrite !register_alias_lookup; [reflexivity|].
  destruct (ab s _); reflexivity.
Qed.
Lemma create_name_lookup r c s :
  lookup String.eqb s (clsregistry (create_class r c)) =
  if String.eqb s (cname c) then Some c else lookup String.eqb s (clsregistry r).
Proof.
  destruct c; unfold create_class; rewrite !register_name_lookup; [reflexivity|].
  destruct (String.eqb s _); reflexivity.
Qed.

Fixpoint last_b {A} (f : A -> bool) (l : list A) : option A :=
  match l with
  | [] => None
  | c :: l' => match last_b f l' with Some x => Some x | None => if f c then Some c else None end
  end.

Lemma last_b_app {A} (f : A -> bool) l c :
  last_b f (l ++ [c]) = if f c then Some c else last_b f l.
Proof.
  induction l as [|x l IH]; cbn; [destruct (f c); reflexivity|]. rewrite IH.
  destruct (f c); reflexivity.
Qed.

Lemma last_b_Some {A} (f : A -> bool) (P : A -> Prop) l c :
  (forall x, f x = true <-> P x) -> last_b f l = Some c <-> last_such P l c.
Proof.
  intros HP. unfold last_such. revert c. induction l as [|x l IH] using rev_ind; intros c.
  - cbn. split; [discriminate|]. intros (l1 & l2 & H & _). destruct l1; discriminate.
  - rewrite last_b_app. destruct (f x) eqn:E.
    + split.
      * intros [= <-]. exists l, []. split; [reflexivity|]. split; [now apply HP|constructor].
      * intros (l1 & l2 & H & Hc & Hf). destruct l2 as [|y l2 _] using rev_ind.
        -- apply app_inj_tail in H. destruct H as [_ ->]. reflexivity.
        -- exfalso. rewrite app_comm_cons, app_assoc in H. apply app_inj_tail in H. destruct H as [_ ->].
           apply Forall_app in Hf. destruct Hf as [_ Hf]. inversion Hf; subst. apply HP in E. contradiction.
    + rewrite IH. split.
      * intros (l1 & l2 & -> & Hc & Hf). exists l1, (l2 ++ [x])%list. rewrite <- app_assoc. split; [reflexivity|].
        split; [exact Hc|]. apply Forall_app. split; [exact Hf|]. constructor; [|constructor].
        rewrite <- HP. congruence.
      * intros (l1 & l2 & H & Hc & Hf). destruct l2 as [|y l2 _] using rev_ind.
        -- apply app_inj_tail in H. destruct H as [_ ->]. apply HP in Hc. congruence.
        -- rewrite app_comm_cons, app_assoc in H. apply app_inj_tail in H. destruct H as [-> ->].
           apply Forall_app in Hf. destruct Hf as [Hf _]. eauto.
Qed.

Lemma last_b_None {A} (f : A -> bool) l : last_b f l = None <-> forall x, In x l -> f x = false.
Proof.
  induction l as [|x l IH] using rev_ind.
  - cbn. split; [intros _ x []|reflexivity].
  - rewrite last_b_app. destruct (f x) eqn:E.
    + split; [discriminate|]. intros H. rewrite (H x) in E; [discriminate|]. apply in_or_app. cbn. auto.
    + rewrite IH. split; intros H y Hy.
      * apply in_app_iff in Hy. destruct Hy as [Hy|[<-|[]]]; auto.
      * apply H. apply in_or_app. auto.
Qed.

Lemma create_classes_lookup cs s :
  lookup String.eqb s (clsregistry (create_classes cs)) = last_b (fun c => String.eqb s (cname c)) cs /\
  lookup String.eqb s (aliasregistry (create_classes cs)) = last_b (ab s) cs.
Proof.
  unfold create_classes. induction cs as [|c cs IH] using rev_ind; [split; reflexivity|].
  rewrite fold_left_app. cbn [fold_left]. rewrite create_name_lookup, create_alias_lookup, !last_b_app.
  destruct IH as [-> ->]. split; reflexivity.
Qed.

Lemma answers_ab s c : cname c <> s -> ab s c = true <-> answers_to s c.
Proof.
  intros Hn. unfold ab, answers_to. rewrite orb_true_iff, andb_true_iff, negb_true_iff, existsb_exists.
  rewrite String.eqb_eq, String.eqb_neq. split.
  - intros [[-> _]|(a & Ha & H)]; [auto|]. right. exists a. split; [exact Ha|].
    apply orb_true_iff in H. rewrite !String.eqb_eq in H. exact H.
  - intros [->|(a & Ha & H)].
    + left. split; [reflexivity|]. congruence.
    + right. exists a. split; [exact Ha|]. apply orb_true_iff. rewrite !String.eqb_eq. exact H.
Qed.

Lemma last_b_ext {A} (f g : A -> bool) l : (forall x, In x l -> f x = g x) -> last_b f l = last_b g l.
Proof.
  intros H. induction l as [|x l IH]; cbn; [reflexivity|].
  rewrite IH by (intros; apply H; cbn; auto). rewrite (H x) by (cbn; auto). reflexivity.
Qed.

Lemma last_such_iff {A} (f : A -> bool) (P : A -> Prop) l c :
  (forall x, In x l -> f x = true <-> P x) -> last_b f l = Some c <-> last_such P l c.
Proof.
  intros H. unfold last_such. rewrite (last_b_Some f (fun x => f x = true)) by reflexivity.
  unfold last_such.
  split; intros (l1 & l2 & -> & Hc & Hf); exists l1, l2; (split; [reflexivity|]).
  - split; [apply H; [apply in_or_app; cbn; auto|exact Hc]|].
    rewrite Forall_forall in *. intros x Hx Hp. apply (Hf x Hx). apply H; [|exact Hp].
    apply in_or_app. cbn. auto.
  - split; [apply H; [apply in_or_app; cbn; auto|exact Hc]|].
    rewrite Forall_forall in *. intros x Hx Hp. apply (Hf x Hx). apply H; [|exact Hp].
    apply in_or_app. cbn. auto.
Qed.

Lemma clsfactory_spec cs s c :
  clsfactory (create_classes cs) s = Ok c <->
  last_such (fun x => cname x = s) cs c \/
  ((forall x, In x cs -> cname x <> s) /\ last_such (answers_to s) cs c).
Proof.
  unfold clsfactory. destruct (create_classes_lookup cs s) as [-> ->].
  set (f := fun c => String.eqb s (cname c)).
  assert (Hf : forall x, f x = true <-> cname x = s).
  { intros x. unfold f. rewrite String.eqb_eq. split; congruence. }
  destruct (last_b f cs) as [c0|] eqn:E.
  - split.
    + intros [= <-]. left. now apply (last_b_Some f _ _ _ Hf).
    + intros [H|[H _]].
      * apply (last_b_Some f _ _ _ Hf) in H. congruence.
      * apply (last_b_Some f _ _ _ Hf) in E. destruct E as (l1 & l2 & -> & Hc & _).
        exfalso. apply (H c0); [apply in_or_app; cbn; auto|exact Hc].
  - assert (Hn : forall x, In x cs -> cname x <> s).
    { intros x Hx Hc. apply Hf in Hc. rewrite (proj1 (last_b_None f cs) E x Hx) in Hc. discriminate. }
    assert (Hiff : last_b (ab s) cs = Some c <-> last_such (answers_to s) cs c).
    { apply last_such_iff. intros x Hx. apply answers_ab. auto. }
    destruct (last_b (ab s) cs) as [c1|] eqn:E2.
    + split.
      * intros [= <-]. right. split; [exact Hn|]. now apply Hiff.
      * intros [H|[_ H]]; [apply (last_b_Some f _ _ _ Hf) in H; congruence|].
        apply Hiff in H. congruence.
    + split; [discriminate|]. intros [H|[_ H]]; [apply (last_b_Some f _ _ _ Hf) in H; congruence|].
      apply Hiff in H. discriminate.
Qed.

Lemma clsfactory_err cs s e :
  clsfactory (create_classes cs) s = Err e <->
  e = RuntimeError /\ forall x, In x cs -> cname x <> s /\ ~ answers_to s x.
Proof.
  unfold clsfactory. destruct (create_classes_lookup cs s) as [-> ->].
  set (f := fun c => String.eqb s (cname c)).
  assert (Hf : forall x, f x = true <-> cname x = s).
  { intros x. unfold f. rewrite String.eqb_eq. split; congruence. }
  destruct (last_b f cs) as [c0|] eqn:E.
  - split; [discriminate|]. intros [_ H]. apply (last_b_Some f _ _ _ Hf) in E.
    destruct E as (l1 & l2 & -> & Hc & _).
    exfalso. destruct (H c0) as [Hx _]; [apply in_or_app; cbn; auto|]. congruence.
  - assert (Hn : forall x, In x cs -> cname x <> s).
    { intros x Hx Hc. apply Hf in Hc. rewrite (proj1 (last_b_None f cs) E x Hx) in Hc. discriminate. }
    destruct (last_b (ab s) cs) as [c1|] eqn:E2.
    + split; [discriminate|]. intros [_ H].
      apply (last_b_Some (ab s) (fun x => ab s x = true)) in E2; [|reflexivity].
      destruct E2 as (l1 & l2 & -> & Hc & _).
      assert (Hi : In c1 (l1 ++ c1 :: l2)%list) by (apply in_or_app; cbn; auto).
      exfalso. destruct (H c1 Hi) as [Hx Hy]. apply Hy. apply answers_ab; auto.
    + split.
      * intros [= <-]. split; [reflexivity|]. intros x Hx. split; [auto|].
        intros Ha. apply answers_ab in Ha; auto.
        rewrite (proj1 (last_b_None _ cs) E2 x Hx) in Ha. discriminate.
      * intros [-> _]. reflexivity.
Qed.

(* every class with a unique name stays reachable under it *)
Lemma clsfactory_own_name cs c :
  In c cs -> (forall x, In x cs -> cname x = cname c -> x = c) ->
  clsfactory (create_classes cs) (cname c) = Ok c.
Proof.
  intros Hi Hu. apply clsfactory_spec. left.
  destruct (last_b (fun x => String.eqb (cname c) (cname x)) cs) as [x|] eqn:E.
  - assert (Hl : last_such (fun x => cname x = cname c) cs x).
    { apply (last_b_Some (fun x => String.eqb (cname c) (cname x))); [|exact E].
      intros y. rewrite String.eqb_eq. split; congruence. }
    assert (x = c).
    { destruct Hl as (l1 & l2 & -> & Hx & _). apply Hu; [apply in_or_app; cbn; auto|exact Hx]. }
    now subst.
  - exfalso. pose proof (proj1 (last_b_None _ cs) E c Hi) as H. cbn in H.
    rewrite String.eqb_refl in H. discriminate.
Qed.

Definition Base0 : pycls := Root "Detector" (Some ["XRF"]).
Definition Sub0 : pycls := Sub "Pilatus" None Base0.

Lemma inherited_alias_taken :
  clsfactory (create_classes [Base0]) "XRF" = Ok Base0 /\
  clsfactory (create_classes [Base0; Sub0]) "XRF" = Ok Sub0 /\ Base0 <> Sub0.
Proof. split; [reflexivity|]. split; [reflexivity|discriminate]. Qed.

Lemma mixed_case_unknown :
  clsfactory (create_classes [Base0]) "xrf" = Ok Base0 /\
  clsfactory (create_classes [Base0]) "Xrf" = Err RuntimeError.
Proof. split; reflexivity. Qed.
