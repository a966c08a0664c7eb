(* C14: class registry (utils/classfactory.py). *)
From Verif Require Import Base ClassFactoryModel ClassFactorySpec ClassFactoryProofs.
Local Open Scope string_scope.
Local Open Scope list_scope.

(* A string resolves to the last class registered under that exact name, and if
   there is none to the last class that has it as alias (or as lower-case variant
   of its name or of an alias). *)
Theorem C14_lookup_partial :
  forall cs s c,
  clsfactory (create_classes cs) s = Ok c <->
  last_such (fun x => cname x = s) cs c \/
  ((forall x, In x cs -> cname x <> s) /\ last_such (answers_to s) cs c).
Proof. exact clsfactory_spec. Qed.
Print Assumptions C14_lookup_partial.

Example C14_lookup_ex :
  let A := Root "Detector" (Some ["XRFdet"]) in let B := Sub "Pilatus" (Some ["PX"]) A in
  clsfactory (create_classes [A; B]) "xrfdet" = Ok A /\
  clsfactory (create_classes [A; B]) "pilatus" = Ok B.
Proof. split; reflexivity. Qed.

(* It raises RuntimeError exactly when no class answers to the string. *)
Theorem C14_unknown_raises :
  forall cs s e,
  clsfactory (create_classes cs) s = Err e <->
  e = RuntimeError /\ forall x, In x cs -> cname x <> s /\ ~ answers_to s x.
Proof. exact clsfactory_err. Qed.
Print Assumptions C14_unknown_raises.

Example C14_unknown_ex : clsfactory (create_classes [Root "A" (Some ["b"])]) "c" = Err RuntimeError.
Proof. reflexivity. Qed.

(* A class whose name nobody else uses stays reachable under it. *)
Theorem C14_own_name :
  forall cs c,
  In c cs -> (forall x, In x cs -> cname x = cname c -> x = c) ->
  clsfactory (create_classes cs) (cname c) = Ok c.
Proof. exact clsfactory_own_name. Qed.
Print Assumptions C14_own_name.

Example C14_own_name_ex :
  clsfactory (create_classes [Root "A" (Some ["B"]); Sub "B" (Some ["A"]) (Root "A" (Some ["B"]))]) "A"
  = Ok (Root "A" (Some ["B"])).
Proof. reflexivity. Qed.

(* The full claim fails twice: a subclass without aliases of its own takes over
   the aliases it inherits, and only the exact and the all-lower-case spelling
   of an alias are found. *)
Theorem C14_alias_stays_reachable_refuted :
  clsfactory (create_classes [Base0]) "XRF" = Ok Base0 /\
  clsfactory (create_classes [Base0; Sub0]) "XRF" = Ok Sub0 /\ Base0 <> Sub0.
Proof. exact inherited_alias_taken. Qed.
Print Assumptions C14_alias_stays_reachable_refuted.

Theorem C14_any_letter_case_refuted :
  clsfactory (create_classes [Base0]) "xrf" = Ok Base0 /\
  clsfactory (create_classes [Base0]) "Xrf" = Err RuntimeError.
Proof. exact mixed_case_unknown. Qed.
Print Assumptions C14_any_letter_case_refuted.
