(* Model of the default plot: src/spectrocrunch/process/nxutils.py:set_default and src/spectrocrunch/io/nxfs.py:Path.mark_default.
   NXdata groups are those of PlotModel.  A path is the list of its groups (name and NX_class, None without class) from the path up to the root. *)
From Verif Require Export PlotModel.
Local Open Scope list_scope.
Local Open Scope nat_scope.

(* nxutils.py 4-12: the loop over NXdata groups; [i] is the number of the group, [sel] the selected one *)
Fixpoint select (l : list nxdata) (default : option chars) (sel : option nat) (i : nat) : result (list nxdata * option nat) :=
  match l with
  | [] => Ok ([], sel)
  | d :: l' =>
    match default with
    | None => match x_signal d with
              | None => Err AttributeError   (* None.name *)
              | Some n => let! (r, s) := select l' (Some n) (Some i) (S i) in Ok (d :: r, s)
              end
    | Some n => let (d', b) := default_signal d n in
                let! (r, s) := select l' default (if b then Some i else sel) (S i) in Ok (d' :: r, s)
    end
  end.
(* nxutils.py 1-17: the groups and the one that is marked as default (None: the parent is) *)
Definition set_default (l : list nxdata) (default : option chars) : result (list nxdata * option nat) := select l default None 0.

Inductive nxclass : Type := NXroot | NXentry | NXdata | NXother.
Definition class_eqb (a b : nxclass) : bool := match a, b with NXroot, NXroot | NXentry, NXentry | NXdata, NXdata | NXother, NXother => true | _, _ => false end.
Definition is_class (c : option nxclass) (k : nxclass) : bool := match c with Some c => class_eqb c k | None => false end.
Definition group := (chars * option nxclass)%type.
(* what is written to an ancestor: the signal of an NXdata or the attribute default, the relative path of names *)
Inductive mark : Type := MSignal (n : chars) | MDefault (rel : list chars).
(* nxfs.py 539-560: [rel]: from below [parent] down to the NXdata that was passed; one result for each parent *)
Fixpoint marks (path : group) (rel : option (list chars)) (parents : list group) : list (option mark) :=
  match parents with
  | [] => []
  | parent :: up =>
    let rel1 := match rel with Some r => Some (fst path :: r) | None => None end in
    if is_class (snd parent) NXdata then Some (MSignal (fst path)) :: marks parent rel1 up
    else if is_class (snd path) NXentry then Some (MDefault [fst path]) :: marks parent rel1 up
    else match snd parent with
         | None => None :: marks parent rel1 up
         | Some c =>
           let rel2 := if is_class (snd path) NXdata then Some [fst path] else rel1 in
           let m := match rel2 with Some r => Some (MDefault r) | None => None end in
           if class_eqb c NXroot then m :: map (fun _ => None) up else m :: marks parent rel2 up
         end
  end.
Definition mark_default (path : list group) : list (option mark) :=
  match path with [] => [] | g :: up => marks g None up end.
