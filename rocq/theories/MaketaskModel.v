(* Model of the creation of tasks: process/utils.py, the parameters of process/basetask.py (with process/nxprocess.py 15-18),
   process/nxwrap.py, process/nxprocesswrap.py and process/nxreplace.py.  Dependencies and the parent of the output are only present or not. *)
From Verif Require Export Base QcTac.
From Coq Require Export String.
Local Open Scope string_scope.
Local Open Scope list_scope.
Local Open Scope nat_scope.

(* the class of a task: that of a module, of nxprocesswrap.py or of nxwrap.py *)
Inductive class : Type := Module (name : string) | ProcessWrap | PathWrap.
(* the value of a parameter *)
Inductive value : Type := Text (s : string) | NoneValue | Class (c : class) | Value (n : Z).
Definition params := list (string * value).
(* utils.py 8-39: method and module *)
Definition table : list (string * string) :=
  [("crop", "nxcrop"); ("replace", "nxreplace"); ("minlog", "nxminlog"); ("align", "nxalign"); ("expression", "nxexpression");
   ("resample", "nxresample"); ("pymca", "nxpymca"); ("fullfield", "nxfullfield"); ("xiaedftonx", "nxxiaedf"); ("scenevis", "scenevis");
   ("xrfgeometry", "nxqxrf"); ("blissmerge", "nxblissmerge"); ("blissmcapre", "nxblissmcapre"); ("blisspymca", "nxblisspymca");
   ("stack", "nxstack"); ("tile", "nxtile")].
Definition module_of (p : params) : option string :=
  match lookup String.eqb "method" p with Some (Text m) => lookup String.eqb m table | _ => None end.
(* utils.py 6-46 create_task: the class and its parameters; UserError 0 is TaskException *)
Definition task_class (p : params) : result (class * params) :=
  match module_of p with
  | Some m => Ok (Module m, p)
  | None => match lookup String.eqb "_task" p with
            | Some (Class c) => Ok (c, remove_key String.eqb "_task" p)
            | Some NoneValue | None => Err (UserError 0)
            | Some _ => Err TypeError   (* not callable *)
            end
  end.
(* a default: parameters[k] = parameters.get(k, v) *)
Definition set_default (p : params) (d : string * value) : params :=
  match lookup String.eqb (fst d) p with Some v => assign String.eqb (fst d) v p | None => assign String.eqb (fst d) (snd d) p end.
Section Class.
(* the parameters of a class beyond those of nxprocess.Task, and its defaults *)
Variables (required optional : list string) (defaults : params).
Definition all_required : list string := "name" :: "method" :: "default" :: required.
(* basetask.py 127-141 parameters, with 209-215 and nxprocess.py 15-18 *)
Definition set_parameters (p : params) : result params :=
  match lookup String.eqb "method" p with
  | None => Err KeyError   (* self.method is needed for the default of "name" *)
  | Some m =>
    let p := fold_left set_default (("name", m) :: ("default", NoneValue) :: defaults) p in
    if forallb (fun k => mem String.eqb k p) all_required
    then Ok (filter (fun kv => existsb (String.eqb (fst kv)) (all_required ++ optional)) p)
    else Err MissingParameter
  end.
End Class.
(* required and optional parameters and defaults of each module *)
Record spec := { s_required : list string; s_optional : list string; s_defaults : params }.
(* basetask.py 31-49 __init__ with the wrappers *)
Definition init (specs : string -> spec) (c : class) (deps outputparent : bool) (p : params) : result params :=
  match c with
  | PathWrap => match lookup String.eqb "path" p with
                | None | Some NoneValue => Err (UserError 0)
                | Some _ => Err AttributeError   (* self.outputparent = ...: the property of nxwrap.py has no setter *)
                end
  | ProcessWrap => if deps || outputparent then Ok p else Err ValueError
  | Module m => let! p := set_parameters (s_required (specs m)) (s_optional (specs m)) (s_defaults (specs m)) p in
                if deps || outputparent then Ok p else Err ValueError
  end.
Definition create_task (specs : string -> spec) (deps outputparent : bool) (p : params) : result (class * params) :=
  let! (c, p) := task_class p in
  let! p := init specs c deps outputparent p in
  Ok (c, p).
(* utils.py 49-65 nxpathtotask; [config]: the parameters when the path is an NXprocess *)
Definition nxpathtotask (specs : string -> spec) (config : option params) (name : string) (path : value) (deps : bool) : result (class * params) :=
  let (p, c) := match config with
                | Some p => (if negb (mem String.eqb "method" p) && negb (mem String.eqb "name" p) then assign String.eqb "name" (Text name) p else p, ProcessWrap)
                | None => ([("path", path)], PathWrap)
                end in
  if existsb (fun k => mem String.eqb k p) ["dependencies"; "outputparent"; "_task"] then Err TypeError   (* given twice *)
  else create_task specs deps true (("_task", Class c) :: p).

(* ---- nxreplace.py 11-18; None: nan ---- *)
Inductive old : Type := NpNan | OtherNan | Number (q : Qc).   (* np.nan itself, another nan, a number *)
Definition replace (o : old) (new : option Qc) (data : list (option Qc)) : list (option Qc) :=
  match o with
  | NpNan => map (fun x => match x with None => new | Some _ => x end) data
  | OtherNan => data   (* no number equals nan *)
  | Number q => map (fun x => match x with Some y => if Qc_eqb y q then new else x | None => x end) data
  end.
