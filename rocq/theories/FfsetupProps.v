(* Properties of the amount of a compound in a layer *)
From Verif Require Import FfsetupSpec FfsetupProofs.
Local Open Scope string_scope.
Local Open Scope list_scope.
Local Open Scope nat_scope.
Local Notation q := Qc_of_Z.

(* the compound gets its percentage, fractions sum to one and the other compounds keep their ratios *)
Theorem C126_set name w f : NoDup (map fst f) -> In name (map fst f) -> w <> q 100 -> others name f <> 0%Qc -> exists g,
  set_compound name w f = Ok g /\ total g = 1%Qc /\ get_compound name g = Ok w /\ map fst g = map fst f /\
  forall k v, k <> name -> lookup String.eqb k f = Some v -> lookup String.eqb k g = Some (v * ((1 - w / q 100) / others name f))%Qc.
Proof. exact (set_spec name w f). Qed.
Print Assumptions C126_set.
Example C126_set_case :
  match set_compound "b" (q 40) [("a", (q 1 / q 4)%Qc); ("b", (q 1 / q 2)%Qc); ("c", (q 1 / q 4)%Qc)] with
  | Ok g => get_compound "b" g = Ok (q 40) /\ get_compound "a" g = Ok (q 30) /\ get_compound "c" g = Ok (q 30) /\ total g = 1%Qc
  | Err _ => False
  end.
Proof. vm_compute. repeat split; first [apply Qc_is_canon; reflexivity | apply f_equal, Qc_is_canon; reflexivity]. Qed.
(* setting the percentage that is there changes nothing: plots and optimisations can restore it *)
Theorem C126_restore name w f : NoDup (map fst f) -> total f = 1%Qc -> get_compound name f = Ok w -> w <> q 100 -> set_compound name w f = Ok f.
Proof. exact (set_same name w f). Qed.
Print Assumptions C126_restore.
Example C126_restore_case : let f := [("a", (q 1 / q 4)%Qc); ("b", (q 3 / q 4)%Qc)] in total f = 1%Qc /\ get_compound "b" f = Ok (q 75).
Proof. vm_compute. repeat split; first [apply Qc_is_canon; reflexivity | apply f_equal, Qc_is_canon; reflexivity]. Qed.
(* hundred percent, a compound that is alone and a compound that is not there are errors *)
Theorem C126_errors name f w : set_compound name (q 100) f = Err ValueError /\
  (w <> q 100 -> others name f = 0%Qc -> set_compound name w f = Err ZeroDivisionError) /\
  (w <> q 100 -> others name f <> 0%Qc -> ~ In name (map fst f) -> set_compound name w f = Err AttributeError).
Proof. exact (set_errors name f w). Qed.
Print Assumptions C126_errors.
Example C126_errors_case : set_compound "b" (q 40) [("b", q 1)] = Err ZeroDivisionError /\ set_compound "b" (q 40) [("a", q 1)] = Err AttributeError.
Proof. split; reflexivity. Qed.
(* more than hundred percent is accepted and gives negative fractions *)
Theorem C126_above_refuted name w f k v : NoDup (map fst f) -> In name (map fst f) -> (q 100 < w)%Qc -> (0 < others name f)%Qc -> k <> name -> lookup String.eqb k f = Some v -> (0 < v)%Qc ->
  exists g u, set_compound name w f = Ok g /\ lookup String.eqb k g = Some u /\ (u < 0)%Qc.
Proof. exact (above_hundred name w f k v). Qed.
Print Assumptions C126_above_refuted.
Example C126_above_case :
  match set_compound "b" (q 150) [("a", (q 1 / q 2)%Qc); ("b", (q 1 / q 2)%Qc)] with Ok g => get_compound "a" g = Ok (q (-50)) | Err _ => False end.
Proof. vm_compute. apply f_equal, Qc_is_canon; reflexivity. Qed.

(* the thickness of a compound is its volume fraction of the thickness of the layer *)
Theorem C126_thickness name t d f : NoDup (map fst f) -> In name (map fst f) -> others name f <> 0%Qc -> d <> 0%Qc -> t <> d ->
  get_layerthickness (set_layerthickness d) = d /\
  exists g, set_tcompound name t (set_layerthickness d) f = Ok g /\ total g = 1%Qc /\ get_tcompound name (set_layerthickness d) g = Ok t.
Proof. exact (thickness_back name t d f). Qed.
Print Assumptions C126_thickness.
Theorem C126_full_thickness name d f : d <> 0%Qc -> set_tcompound name d (set_layerthickness d) f = Err ValueError.
Proof. exact (full_thickness name d f). Qed.
Print Assumptions C126_full_thickness.
Example C126_thickness_case :
  match set_tcompound "b" (q 4) (set_layerthickness (q 10)) [("a", (q 1 / q 2)%Qc); ("b", (q 1 / q 2)%Qc)] with
  | Ok g => get_tcompound "b" (set_layerthickness (q 10)) g = Ok (q 4) /\ get_compound "a" g = Ok (q 60)
  | Err _ => False
  end.
Proof. vm_compute. repeat split; first [apply Qc_is_canon; reflexivity | apply f_equal, Qc_is_canon; reflexivity]. Qed.
(* a compound that is not there has no amount *)
Theorem C126_missing name f d : ~ In name (map fst f) -> get_compound name f = Err KeyError /\ get_tcompound name d f = Err KeyError.
Proof. exact (get_missing name f d). Qed.
Print Assumptions C126_missing.
Example C126_missing_case : get_compound "b" [("a", q 1)] = Err KeyError.
Proof. reflexivity. Qed.
