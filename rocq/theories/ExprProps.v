From Coq Require Import String.
From Verif Require Import ExprModel ExprSpec ExprProofs ExprEvalProofs ExprTaskProofs.
Close Scope string_scope.
Local Open Scope nat_scope.

(* ---- C72: an expression is read and evaluated as it is written ---- *)
Theorem C72_eval : forall V (A : alg V) e t m, wf name_ok e -> written (body (fun x => txt "var_" ++ x) e) t -> no_bare e ->
  (forall x, In x (variables e) -> ~ reserved x /\ get x m <> None) ->
  yields (eval A t m) (meaning A (fun x => get x m) e).
Proof. exact @eval_written. Qed.
Print Assumptions C72_eval.
Example C72_case : let e := Bin Sub (Bin Add (Num (txt "2") None) (Bin Mul (Var (txt "a")) (Bin Pow (Num (txt "2") None) (Bin Pow (Num (txt "3") None) (Num (txt "2") None)))))
    (Bin Div (Neg (Bin Sub (Var (txt "b")) (Num (txt "9") None))) (Fun (txt "abs") (Neg (Num (txt "3") None)))) in
  let t := txt " 2+var_a * 2^3^2-  -(var_b-9)/abs( -3) " in let m := [(txt "a", Some 5%Z); (txt "b", Some 3%Z)] in
  List.concat (body (fun x => txt "var_" ++ x) e) = filter (fun c => negb (is_space c)) t /\
  meaning whole (fun x => get x m) e = Some (Some 2560%Z) /\ eval whole t m = Ok (Some 2560%Z).
Proof. vm_compute. split; [reflexivity|]. split; reflexivity. Qed.
Example C72_case_wf : wf name_ok (Bin Mul (Var (txt "a")) (Bin Sub (Num (txt "2") None) (Num (txt "3") (Some (ch 101, txt "-2"))))) /\
  written (body (fun x => txt "var_" ++ x) (Bin Mul (Var (txt "a")) (Bin Sub (Num (txt "2") None) (Num (txt "3") (Some (ch 101, txt "-2")))))) (txt "var_a *(2-3e-2)") /\
  (forall x, In x [txt "a"] -> ~ reserved x /\ get x [(txt "a", 1%Z)] <> None).
Proof.
  split.
  { split; [split; [discriminate|repeat constructor]|]. split; (split; [|first [exact I | split; [left; reflexivity|exists [ch 45], (txt "2"); split; [right; right; reflexivity|split; [discriminate|split; [repeat constructor|reflexivity]]]]]]).
    - exists (txt "2"), []. split; [discriminate|]. split; [repeat constructor|]. split; [constructor|left; reflexivity].
    - exists (txt "3"), []. split; [discriminate|]. split; [repeat constructor|]. split; [constructor|left; reflexivity]. }
  split.
  { vm_compute. apply (written_cons [] (txt "var_a")); [constructor|]. apply (written_cons (txt " ") (txt "*")); [repeat constructor|].
    apply (written_cons [] (txt "(")); [constructor|]. apply (written_cons [] (txt "2")); [constructor|]. apply (written_cons [] (txt "-")); [constructor|].
    apply (written_cons [] (txt "3e-2")); [constructor|]. apply (written_cons [] (txt ")") [] []); [constructor|]. constructor. constructor. }
  intros x [<-|[]]. split; [|discriminate]. intros [R|[R|R]]; vm_compute in R; [discriminate R|discriminate R|]. repeat (destruct R as [R|R]; [discriminate R|]). destruct R.
Qed.
(* a name that is neither a function nor a variable is worth zero, and its argument is dropped *)
Theorem C72_unknown_function_refuted : forall V (A : alg V), eval A (txt "foo(3)") [] = Ok (v_zero A).
Proof. exact unknown_function. Qed.
Print Assumptions C72_unknown_function_refuted.
Theorem C72_unknown_variable_refuted : forall V (A : alg V), eval A (txt "var_q") [] = Ok (v_zero A).
Proof. exact unknown_variable. Qed.
Print Assumptions C72_unknown_variable_refuted.
(* a sign binds stronger than a power *)
Theorem C72_sign_refuted : eval whole (txt "-2^2") [] = Ok (Some 4%Z) /\ eval whole (txt "0-2^2") [] = Ok (Some (-4)%Z).
Proof. exact sign_power. Qed.
Print Assumptions C72_sign_refuted.
(* some texts that are no expression are accepted by the grammar *)
Theorem C72_malformed_refuted : (exists s, parse (txt "2---") = Some s) /\ eval whole (txt "2---") [] = Err IndexError.
Proof. exact malformed. Qed.
Print Assumptions C72_malformed_refuted.
(* nanone and nanzero change the variable they are applied to, also where it is used elsewhere *)
Theorem C72_in_place_refuted : exists data, exists v w,
  eval whole (txt "nanone(var_a)+var_a") [(txt "a", data)] = Ok v /\ eval whole (txt "var_a+nanone(var_a)") [(txt "a", data)] = Ok w /\ v <> w.
Proof. exact in_place. Qed.
Print Assumptions C72_in_place_refuted.

(* ---- C73: the expression of the task applied to a signal ---- *)
Theorem C73_process : forall V (A : alg V) e t order read signals parent data, wf field_ok e -> written (body braced e) t -> no_bare e ->
  NoDup order -> (forall x, In x order <-> In x (fields None t)) -> In [] (variables e) -> (exists z, In z (variables e) /\ z <> []) -> length order <= 4 ->
  match meaning A (fun z => match z with [] => Some data | _ => defined (read (resolve signals parent z)) end) e with
  | Some v => process A order t read signals Calculate parent data = Ok (Some v)
  | None => exists x, process A order t read signals Calculate parent data = Err x
  end.
Proof. exact @process_few. Qed.
Print Assumptions C73_process.
Theorem C73_general : forall V (A : alg V) e t order read signals parent data, wf field_ok e -> written (body braced e) t -> no_bare e ->
  NoDup order -> (forall x, In x order <-> In x (fields None t)) -> In [] (variables e) -> (exists z, In z (variables e) /\ z <> []) ->
  (forall i y, 0 < i < length order -> newname i = Ok y -> ~ reserved y) ->
  match meaning A (fun z => match z with [] => Some data | _ => defined (read (resolve signals parent z)) end) e with
  | Some v => process A order t read signals Calculate parent data = Ok (Some v)
  | None => exists x, process A order t read signals Calculate parent data = Err x
  end.
Proof. exact @process_general. Qed.
Print Assumptions C73_general.
Example C73_case : let t := txt "{}*nanone({xmap icr}/({arr}*{xmap_ocr}))" in
  let read s := if chars_eqb (snd s) (txt "xmap icr") then Ok (Some 100%Z) else if chars_eqb (snd s) (txt "arr") then Ok (if chars_eqb (fst s) (txt "g") then Some 5%Z else Some 7%Z) else Ok (Some 4%Z) in
  let e := Bin Mul (Var []) (Fun nanone (Bin Div (Var (txt "xmap icr")) (Bin Mul (Var (txt "arr")) (Var (txt "xmap_ocr"))))) in
  t = List.concat (body braced e) /\ fields None t = [[]; txt "xmap icr"; txt "arr"; txt "xmap_ocr"] /\
  process whole [txt "arr"; []; txt "xmap_ocr"; txt "xmap icr"] t read [(txt "g", txt "arr"); (txt "g", txt "xmap_ocr"); (txt "h", txt "xmap_ocr")] Calculate (txt "h") (Some 3%Z) = Ok (Some (Some 15%Z)) /\
  meaning whole (fun z => match z with [] => Some (Some 3%Z) | _ => defined (read (resolve [(txt "g", txt "arr")] (txt "h") z)) end) e = Some (Some 15%Z).
Proof. vm_compute. repeat split. Qed.
Theorem C73_no_data : forall V (A : alg V) order t read signals how parent data, ~ In [] order ->
  process A order t read signals how parent data = Err ValueError.
Proof. exact process_no_data. Qed.
Print Assumptions C73_no_data.
Theorem C73_other : forall V (A : alg V) order t read signals parent data, In [] order ->
  process A order t read signals Skip parent data = Ok None /\ process A order t read signals Copy parent data = Ok (Some data).
Proof. exact process_other. Qed.
Print Assumptions C73_other.
Example C73_other_case : process whole [txt "p"] (txt "2*{p}") (fun _ => Ok (Some 1%Z)) [] Calculate [] (Some 3%Z) = Err ValueError /\
  process whole [[]; txt "p"] (txt "{}*{p}") (fun _ => Err KeyError) [] Copy [] (Some 3%Z) = Ok (Some (Some 3%Z)) /\
  process whole [[]; txt "p"] (txt "{}*{p}") (fun _ => Err KeyError) [] Calculate [] (Some 3%Z) = Err KeyError.
Proof. vm_compute. repeat split. Qed.
(* a name stands for the only signal with that name or else for the one next to the signal processed *)
Theorem C73_unique : forall before after g x parent, (forall s, In s (before ++ after) -> snd s <> x) ->
  resolve (before ++ (g, x) :: after) parent x = (g, x).
Proof. exact resolve_unique. Qed.
Print Assumptions C73_unique.
Theorem C73_absent : forall signals x parent, (forall s, In s signals -> snd s <> x) -> resolve signals parent x = (parent, x).
Proof. exact resolve_none. Qed.
Print Assumptions C73_absent.
Theorem C73_several : forall before middle after g h x parent,
  resolve (before ++ (g, x) :: middle ++ (h, x) :: after) parent x = (parent, x).
Proof. exact resolve_several. Qed.
Print Assumptions C73_several.
Example C73_resolve_case : resolve [(txt "g", txt "u"); (txt "h", txt "v"); (txt "g", txt "v")] (txt "k") (txt "u") = (txt "g", txt "u") /\
  resolve [(txt "g", txt "u"); (txt "h", txt "v"); (txt "g", txt "v")] (txt "k") (txt "v") = (txt "k", txt "v").
Proof. vm_compute. split; reflexivity. Qed.
(* the fourth name is taken for Euler's number *)
Theorem C73_fourth_refuted : exists e t order (read : signal -> result (option Z)) data v,
  wf field_ok e /\ written (body braced e) t /\ no_bare e /\ NoDup order /\ (forall x, In x order <-> In x (fields None t)) /\ length order = 5 /\
  meaning whole (fun z => match z with [] => Some data | _ => defined (read (resolve [] [] z)) end) e = Some v /\
  exists w, process whole order t read [] Calculate [] data = Ok (Some w) /\ v <> w.
Proof. exact fourth_name. Qed.
Print Assumptions C73_fourth_refuted.
(* without names the expression is not applied *)
Theorem C73_only_data : forall V (A : alg V) t read signals parent data,
  process A [[]] t read signals Calculate parent data = Ok (Some data).
Proof. exact process_only_data. Qed.
Print Assumptions C73_only_data.
Theorem C73_only_data_refuted : exists e t (data : option Z) v, wf field_ok e /\ written (body braced e) t /\ no_bare e /\ fields None t = [[]] /\
  meaning whole (fun z => match z with [] => Some data | _ => None end) e = Some v /\
  exists w, process whole [[]] t (fun _ => Err KeyError) [] Calculate [] data = Ok (Some w) /\ v <> w.
Proof. exact only_data. Qed.
Print Assumptions C73_only_data_refuted.
