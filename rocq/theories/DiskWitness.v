From Coq Require Import String.
From Verif Require Import Text DiskModel DiskSpec DiskProofs.
Close Scope string_scope.
Local Open Scope nat_scope.
Local Notation s := list_ascii_of_string.

Lemma link_refuted :
  (exists root root' src dest q c, move 8 9 (fun _ => 0) [] src dest true true root = (Ok dest, root') /\ below src q = None /\ below dest q = None /\ peek root q = Some (AFile c) /\ forall z, peek root' z <> Some (AFile c)) /\
  (exists device root root' src dest q c, move 8 9 device [s "Q7"] src dest false false root = (Ok dest, root') /\ below src q = None /\ below dest q = None /\ peek root q = Some (AFile c) /\ peek root' q = None).
Proof.
  split.
  - exists (Dir [(s "new", File (s "1")); (s "l", Link false [Nm (s "data")]); (s "data", File (s "2"))]), (Dir [(s "l", File (s "1"))]), [s "new"], [s "l"], [s "data"], (s "2").
    split; [vm_compute; reflexivity|]. split; [reflexivity|]. split; [reflexivity|]. split; [reflexivity|]. intros z H. destruct z as [|x z]; [discriminate|]. unfold peek in H. cbn [look get] in H. destruct (chars_eqb x (s "l")); [|discriminate]. destruct z; [|discriminate]. cbn [look thing_of] in H. discriminate H.
  - exists (fun p => length p), (Dir [(s "l", Link false [Nm (s "data")]); (s "data", File (s "2")); (s "b", Dir [])]). eexists. exists [s "l"], [s "b"; s "l"], [s "data"], (s "2").
    split; [vm_compute; reflexivity|]. split; [reflexivity|]. split; [reflexivity|]. split; reflexivity.
Qed.
Lemma inside_refuted : exists root root' p d, islink 8 root p = true /\ linkdest 8 root p = Some d /\ below d p <> None /\ peek root d = Some ADir /\ remove 8 9 true p root = (Err OSError, root') /\ peek root' d = None.
Proof.
  exists (Dir [(s "a", Dir [(s "f", File (s "1")); (s "self", Link false [])])]). eexists. exists [s "a"; s "self"], [s "a"]. split; [reflexivity|]. split; [reflexivity|]. split; [discriminate|]. split; [reflexivity|]. split; [vm_compute; reflexivity|reflexivity].
Qed.
