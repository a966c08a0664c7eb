(* Model of src/spectrocrunch/utils/classfactory.py *)
From Coq Require Export String Ascii.
From Verif Require Export Base.
Export ListNotations.
Local Open Scope string_scope.

(* str.lower() on ASCII letters *)
Definition lower_char (c : ascii) : ascii :=
  let n := N_of_ascii c in
  if (65 <=? n)%N && (n <=? 90)%N then ascii_of_N (n + 32) else c.
Fixpoint lower (s : string) : string :=
  match s with
  | EmptyString => EmptyString
  | String c s' => String (lower_char c) (lower s')
  end.

(* A class of one hierarchy (single inheritance): its name, the "aliases" in its
   own body if any, and its parent. *)
Inductive pycls : Type :=
| Root (name : string) (own : option (list string))
| Sub (name : string) (own : option (list string)) (parent : pycls).

Definition cname (c : pycls) : string :=
  match c with Root n _ => n | Sub n _ _ => n end.

(* hasattr(regcls, "aliases") / regcls.aliases: attribute lookup follows the
   parents (utils/classfactory.py:68-69) *)
Fixpoint cls_aliases (c : pycls) : list string :=
  match c with
  | Root _ (Some l) => l
  | Root _ None => []
  | Sub _ (Some l) _ => l
  | Sub _ None p => cls_aliases p
  end.

(* The registries shared by a hierarchy: utils/classfactory.py:101-103 *)
Record registry : Type := {
  clsregistry : list (string * pycls);
  aliasregistry : list (string * pycls)
}.
Definition empty_registry : registry := {| clsregistry := []; aliasregistry := [] |}.

(* utils/classfactory.py:66-74: store the lower-case variant when it differs *)
Definition register_alias (c : pycls) (d : list (string * pycls)) (alias : string)
  : list (string * pycls) :=
  let lalias := lower alias in
  let d := assign String.eqb alias c d in
  if String.eqb lalias alias then d else assign String.eqb lalias c d.

(* utils/classfactory.py:57-74 register *)
Definition register (r : registry) (c : pycls) : registry :=
  let name := cname c in
  let lname := lower name in
  let d := if String.eqb lname name then aliasregistry r
           else assign String.eqb lname c (aliasregistry r) in
  {| clsregistry := assign String.eqb name c (clsregistry r);
     aliasregistry := fold_left (register_alias c) (cls_aliases c) d |}.

(* FactoryMeta.__init__ (utils/classfactory.py:114-119) registers a new class
   once for itself and once per base class; all with the same registry. *)
Definition create_class (r : registry) (c : pycls) : registry :=
  match c with
  | Root _ _ => register r c
  | Sub _ _ _ => register (register r c) c
  end.

Definition create_classes (cs : list pycls) : registry :=
  fold_left create_class cs empty_registry.

(* utils/classfactory.py:22-41 clsfactory *)
Definition clsfactory (r : registry) (name : string) : result pycls :=
  match lookup String.eqb name (clsregistry r) with
  | Some c => Ok c
  | None =>
      match lookup String.eqb name (aliasregistry r) with
      | Some c => Ok c
      | None => Err RuntimeError
      end
  end.
