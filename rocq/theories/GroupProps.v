(* C50: result groups: the spellings of a detector, printing and reading back, equality. *)
From Coq Require Import String.
From Verif Require Import Base Text GroupModel GroupSpec GroupProofs.
Close Scope string_scope.
Local Open Scope nat_scope.
Local Notation s := list_ascii_of_string.

(* each spelling gives the name, number and category of its group *)
Theorem C50_make : forall i k, spells i k -> exists g, make i = Ok g /\ is_group k g.
Proof. exact spells_make. Qed.
Print Assumptions C50_make.
Theorem C50_group_unique : forall k a b, is_group k a -> is_group k b -> a = b.
Proof. exact is_group_unique. Qed.
Print Assumptions C50_group_unique.
(* two spellings of the same detector are the same group *)
Theorem C50_same : forall i j k a b, spells i k -> spells j k -> make i = Ok a -> make j = Ok b -> a = b.
Proof. exact same_spelling. Qed.
Print Assumptions C50_same.
Example same_case : make (GNum 5) = Ok (mkGrp (s "detector05") 5 0) /\ make (GStr (s "xia5")) = make (GNum 5) /\
  make (GStr (s "xiadetector005")) = make (GNum 5) /\ make (GStr (s "xiaS0")) = Ok (mkGrp (s "detectorS0") 0 1) /\
  make (GStr (s "xia")) = Ok (mkGrp (s "counters") (-1) (-1)).
Proof. repeat split. Qed.
Example same_case_spells : spells (GStr (s "xiadetector005")) (Single 5).
Proof. apply (sp_digits (s "xiadetector") (s "005")); [cbn; auto 6|split; [discriminate|reflexivity]]. Qed.

(* the printed name, the group itself and the XIA label are read back as the group *)
Theorem C50_print : forall k g, printable k -> is_group k g -> make (GStr (g_name g)) = Ok g.
Proof. exact print_parse. Qed.
Print Assumptions C50_print.
Theorem C50_copy : forall g, make (GGrp g) = Ok g.
Proof. exact copy_group. Qed.
Print Assumptions C50_copy.
Theorem C50_label : forall k g l, printable k -> is_group k g -> match k with Single _ | Sum _ => True | _ => False end ->
  xialabel g = Some l -> make (GStr l) = Ok g.
Proof. exact label_parse. Qed.
Print Assumptions C50_label.
Example label_case : xialabel (mkGrp (s "detectorS0") 0 1) = Some (s "xiaS0") /\
  xialabel (mkGrp (s "detector07") 7 0) = Some (s "xia07") /\ is_group (Single 7) (mkGrp (s "detector07") 7 0) /\
  is_group (Named (s "fit_parameters")) (mkGrp (s "fit_parameters") (-1) 0).
Proof.
  split; [reflexivity|]. split; [reflexivity|]. split; [reflexivity|].
  split; [reflexivity|]. split; [reflexivity|]. left. split; [|reflexivity]. left. exists (s "fit_"), []. reflexivity.
Qed.
(* groups are equal, and hash alike, exactly when their names are equal *)
Theorem C50_equal : forall a b, (eq_op a (OGrp b) = true <-> g_name a = g_name b) /\
  (eq_op a (OGrp b) = true <-> hash_key a = hash_key b) /\ ne_op a (OGrp b) = negb (eq_op a (OGrp b)).
Proof. exact equal_spec. Qed.
Print Assumptions C50_equal.
Theorem C50_text : forall a t, eq_op a (OText t) = true <-> g_name a = t.
Proof. exact text_equal. Qed.
Print Assumptions C50_text.
(* equal names: the same group *)
Theorem C50_distinct : forall k k' a b, printable k -> printable k' -> is_group k a -> is_group k' b -> g_name a = g_name b ->
  a = b /\ (k = k' \/ (k = Named (s "counters") /\ k' = Counters) \/ (k = Counters /\ k' = Named (s "counters"))).
Proof. exact name_inj. Qed.
Print Assumptions C50_distinct.
(* errors: only ValueError; any name that begins with S and has a letter after it *)
Theorem C50_error : forall i e, make i = Err e -> e = ValueError.
Proof. exact make_error. Qed.
Print Assumptions C50_error.
Theorem C50_s_refuted : forall p t c, In p prefixes -> In c t -> numeric c = false -> make (GStr (p ++ s "S" ++ t)) = Err ValueError.
Proof. exact s_name_error. Qed.
Print Assumptions C50_s_refuted.
Example s_case : make (GStr (s "Scan")) = Err ValueError /\ make (GStr (s "S_concentrations")) = Err ValueError.
Proof. split; reflexivity. Qed.
(* a prefix written twice: the name of a detector, but not a detector; not read back *)
Theorem C50_prefix_refuted :
  make (GStr (s "detectordetector00")) = Ok (mkGrp (s "detector00") (-1) (-1)) /\
  eq_op (mkGrp (s "detector00") (-1) (-1)) (OGrp (mkGrp (s "detector00") 0 0)) = true /\
  make (GStr (s "detector00")) = Ok (mkGrp (s "detector00") 0 0).
Proof. exact (conj eq_refl (conj eq_refl eq_refl)). Qed.
Print Assumptions C50_prefix_refuted.
(* a negative number is not read back; results of a fit are taken for a detector without number *)
Theorem C50_negative_refuted :
  make (GNum (-1)) = Ok (mkGrp (s "detector-1") (-1) 0) /\ make (GStr (s "detector-1")) = Ok (mkGrp (s "-1") (-1) (-1)) /\
  make (GStr (s "parameters")) = Ok (mkGrp (s "parameters") (-1) 0) /\
  xialabel (mkGrp (s "parameters") (-1) 0) = Some (s "xia-1").
Proof. exact (conj eq_refl (conj eq_refl (conj eq_refl eq_refl))). Qed.
Print Assumptions C50_negative_refuted.
(* groups cannot be sorted *)
Theorem C50_order_refuted : forall a b,
  lt_op a b = Err TypeError /\ le_op a b = Err TypeError /\ gt_op a b = Err TypeError /\ ge_op a b = Err TypeError.
Proof. exact no_order. Qed.
Print Assumptions C50_order_refuted.
