(* A small tree: 0 above 1 and 3, 1 above 2; 4 is on its own. *)
From Verif Require Import Base ParamModel ParamSpec.
Local Open Scope nat_scope.

Definition demo : heap :=
  [ mk_pnode [(0, Plain 5%Z)] None [1; 3] [] None;
    mk_pnode [] (Some 0) [2] [] None;
    mk_pnode [(0, Plain 7%Z); (1, Plain 3%Z)] (Some 1) [] [] None;
    mk_pnode [(2, Plain 1%Z)] (Some 0) [] [] None;
    mk_pnode [] None [] [] None ].

Lemma demo_linked : linked demo.
Proof.
  assert (U0 : under demo 0 None) by (eexists; split; reflexivity).
  assert (U1 : under demo 1 (Some 0)) by (eexists; split; reflexivity).
  assert (U2 : under demo 2 (Some 1)) by (eexists; split; reflexivity).
  assert (U3 : under demo 3 (Some 0)) by (eexists; split; reflexivity).
  assert (U4 : under demo 4 None) by (eexists; split; reflexivity).
  assert (C0 : chain demo 0 [0]) by (constructor; exact U0).
  assert (C1 : chain demo 1 [1; 0]) by (econstructor; eassumption).
  split.
  - intros x X. cbn in X. destruct x as [|[|[|[|[|x]]]]]; [eexists; exact C0 | eexists; exact C1 | exists [2; 1; 0] | exists [3; 0] | exists [4] | lia].
    + apply (Chain_step demo 2 1); assumption.
    + apply (Chain_step demo 3 0); assumption.
    + apply Chain_top. exact U4.
  - intros p c E. assert (Y : forall y q, under demo y (Some q) -> (y = 1 /\ q = 0) \/ (y = 2 /\ q = 1) \/ (y = 3 /\ q = 0)).
    { intros y q (d & Ed & Q). destruct y as [|[|[|[|[|y]]]]]; cbn in Ed; [| | | | | destruct y; discriminate]; injection Ed as <-; cbn in Q; try discriminate Q; injection Q as <-; lia. }
    destruct p as [|[|[|[|[|p]]]]]; cbn in E; [| | | | | destruct p; discriminate]; injection E as <-; cbn [down].
    + split; [repeat constructor; cbn; lia|]. intros y. split; [intros [<- | [<- | []]]; assumption|].
      intros U. apply Y in U. cbn [In]. lia.
    + split; [repeat constructor; cbn; lia|]. intros y. split; [intros [<- | []]; assumption|]. intros U. apply Y in U. cbn [In]. lia.
    + split; [constructor|]. intros y. split; [intros []|]. intros U. apply Y in U. cbn [In]. lia.
    + split; [constructor|]. intros y. split; [intros []|]. intros U. apply Y in U. cbn [In]. lia.
    + split; [constructor|]. intros y. split; [intros []|]. intros U. apply Y in U. cbn [In]. lia.
Qed.
Lemma demo_tidy : tidy demo.
Proof.
  intros x c E. destruct x as [|[|[|[|[|x]]]]]; cbn in E; [| | | | | destruct x; discriminate]; injection E as <-; cbn; repeat constructor; cbn; lia.
Qed.
Lemma demo_plain : plain demo.
Proof.
  intros x c k E. destruct x as [|[|[|[|[|x]]]]]; cbn in E; [| | | | | destruct x; discriminate]; injection E as <-; cbn; intuition congruence.
Qed.
