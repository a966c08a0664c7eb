(* Parameters that are inherited along a tree of nodes (pipelines/parameters.py):
   the links of the nodes and how they are rearranged, the values that are seen,
   set and deleted at a node, and the record of what was changed.
   Python objects are numbers into a list of cells.  Keys are numbers: they are
   only compared.  A value is a number, the equality of content hashes
   (hashing.hashequal, C03 and C04) being the equality of numbers; the only other
   value is a SubNode, which can only exist empty (see setitem).  Nodes as values
   of parameters, names and the texts of __repr__ and tree are not modelled. *)
From Verif Require Import Base.

Definition key := nat.
Inductive value := Plain (z : Z) | Sub.
(* what a parameter can be set to: a number or a dictionary *)
Inductive given := GPlain (z : Z) | GDict (entries : list (key * Z)).

(* pipelines/parameters.py:43-47 and 389-399: _data, _parent, _children, _newkeys
   and _hash_all_last, which is kept as the maps it was calculated from, self first
   (two different sequences of maps are taken to have different hashes) *)
Record pnode := mk_pnode {
  data : list (key * value);
  up : option nat;
  down : list nat;
  fresh : list key;
  last : option (list (list (key * Z)))
}.
Definition heap := list pnode.

Definition blank : pnode := mk_pnode [] None [] [] None.
Definition with_data (c : pnode) d := mk_pnode d (up c) (down c) (fresh c) (last c).
Definition with_up (c : pnode) p := mk_pnode (data c) p (down c) (fresh c) (last c).
Definition with_down (c : pnode) l := mk_pnode (data c) (up c) l (fresh c) (last c).
Definition with_fresh (c : pnode) l := mk_pnode (data c) (up c) (down c) l (last c).
Definition with_last (c : pnode) s := mk_pnode (data c) (up c) (down c) (fresh c) s.

Definition alter (h : heap) (x : nat) (f : pnode -> pnode) : heap :=
  match nth_error h x with Some c => set_nth h x (f c) | None => h end.
Definition parent (h : heap) (x : nat) : option nat :=
  match nth_error h x with Some c => up c | None => None end.
Definition children (h : heap) (x : nat) : list nat :=
  match nth_error h x with Some c => down c | None => [] end.
Definition local_map (h : heap) (x : nat) : list (key * value) :=
  match nth_error h x with Some c => data c | None => [] end.

Definition opt_eqb (a b : option nat) : bool :=
  match a, b with
  | None, None => true
  | Some m, Some n => Nat.eqb m n
  | _, _ => false
  end.

Section FoldM.
Context {A B : Type} (f : B -> A -> result B).
Fixpoint foldM (b : B) (l : list A) : result B :=
  match l with
  | [] => Ok b
  | a :: l' => let! b' := f b a in foldM b' l'
  end.
End FoldM.

(* pipelines/parameters.py:133-140: iter_up, self first.  A node can be reached in
   at most as many steps as there are nodes; on a cycle Python does not end, which
   is RuntimeError here. *)
Fixpoint climb (n : nat) (h : heap) (x : nat) : result (list nat) :=
  match n with
  | O => Err RuntimeError
  | S n' =>
      match parent h x with
      | None => Ok [x]
      | Some p => let! l := climb n' h p in Ok (x :: l)
      end
  end.
Definition iter_up (h : heap) (x : nat) : result (list nat) := climb (length h) h x.

(* pipelines/parameters.py:142-147: iter_down, self first, depth first; RecursionError on a cycle *)
Fixpoint descend (n : nat) (h : heap) (x : nat) : result (list nat) :=
  match n with
  | O => Err RuntimeError
  | S n' => let! ls := mapM (descend n' h) (children h x) in Ok (x :: concat ls)
  end.
Definition iter_down (h : heap) (x : nat) : result (list nat) := descend (length h) h x.

(* pipelines/parameters.py:149-153: the last node on the way up *)
Definition root (h : heap) (x : nat) : result nat :=
  let! l := iter_up h x in Ok (List.last l x).

(* ---- links ---- *)

(* pipelines/parameters.py:441-451 *)
Definition newparent (h : heap) (x : nat) (p : option nat) : heap :=
  let h := match parent h x with
           | Some q => alter h q (fun c => with_down c (filter (fun y => negb (Nat.eqb y x)) (down c)))
           | None => h
           end in
  let h := alter h x (fun c => with_up c p) in
  match p with
  | Some n => alter h n (fun c => with_down c (down c ++ [x]))
  | None => h
  end.

(* pipelines/parameters.py:428-439: the setter of parent *)
Definition set_parent (h : heap) (x : nat) (p : option nat) : result heap :=
  if opt_eqb p (Some x) || opt_eqb p (parent h x) then Ok h
  else
    let! h := match p with
              | None => Ok h
              | Some n =>
                  let! l := iter_down h x in
                  Ok (if existsb (Nat.eqb n) l then newparent h n (parent h x) else h)
              end in
    Ok (newparent h x p).

(* pipelines/parameters.py:389-399: Node() and Node(parent=x) *)
Definition new_node (h : heap) : heap * nat := (h ++ [blank], length h).
(* pipelines/parameters.py:453-455 *)
Definition branch (h : heap) (x : nat) : result (heap * nat) :=
  let (h, n) := new_node h in
  let! h := set_parent h n (Some x) in
  Ok (h, n).

(* pipelines/parameters.py:485-496 *)
Definition remove (h : heap) (x : nat) (single : bool) : result (heap * option nat) :=
  let! (h, np) :=
    if single then
      let! (h, np) := match parent h x with
                      | None =>
                          let (h, n) := new_node h in
                          let! h := set_parent h x (Some n) in
                          Ok (h, Some n)
                      | Some _ => Ok (h, None)
                      end in
      let p := parent h x in
      let! h := foldM (fun h c => set_parent h c p) h (children h x) in
      Ok (h, np)
    else Ok (h, None) in
  let! h := set_parent h x None in
  Ok (h, np).

(* pipelines/parameters.py:457-469; the first test is also passed by node=None at a root.
   The right-hand side of "self.parent, keep = node, self.parent" is evaluated first. *)
Definition insert_before (h : heap) (x : nat) (node : option nat) (single : bool) : result (heap * option nat * option nat) :=
  if opt_eqb node (parent h x) || opt_eqb node (Some x) then Ok (h, node, None)
  else
    let (h, n) := match node with Some n => (h, n) | None => new_node h end in
    let! (h, np) := if single then remove h n true else Ok (h, None) in
    let keep := parent h x in
    let! h := set_parent h x (Some n) in
    let! h := match parent h n with
              | None => set_parent h n keep
              | Some _ => Ok h
              end in
    Ok (h, Some n, np).

(* pipelines/parameters.py:471-483; node.parent is evaluated before the test of node being None *)
Definition insert_after (h : heap) (x : nat) (node : option nat) (single : bool) : result (heap * nat * option nat) :=
  match node with
  | None => Err AttributeError
  | Some n =>
      if opt_eqb (Some x) (parent h n) || Nat.eqb n x then Ok (h, n, None)
      else
        let! (h, np) := if single then remove h n true else Ok (h, None) in
        let! h := foldM (fun h c => set_parent h c (Some n)) h (children h x) in
        let! h := set_parent h n (Some x) in
        Ok (h, n, np)
  end.

(* ---- values ---- *)

(* pipelines/parameters.py:124-131 *)
Definition maps (h : heap) (x : nat) (withself : bool) : result (list (list (key * value))) :=
  let! l := iter_up h x in
  Ok (map (local_map h) (if withself then l else tl l)).

(* pipelines/parameters.py:155-160: the first map with the key; the last map raises KeyError *)
Fixpoint first_map (k : key) (ms : list (list (key * value))) : result value :=
  match ms with
  | [] => Err KeyError
  | m :: ms' => match lookup Nat.eqb k m with Some v => Ok v | None => first_map k ms' end
  end.
Definition getitem (h : heap) (x : nat) (k : key) : result value :=
  let! ms := maps h x true in first_map k ms.

(* utils/listtools.py:193-202 *)
Fixpoint unique_everseen (seen : list key) (l : list key) : list key :=
  match l with
  | [] => []
  | k :: l' => if existsb (Nat.eqb k) seen then unique_everseen seen l' else k :: unique_everseen (k :: seen) l'
  end.
(* pipelines/parameters.py:257-275 *)
Definition iter_keys (h : heap) (x : nat) (withself : bool) : result (list key) :=
  let! ms := maps h x withself in Ok (unique_everseen [] (concat (map keys ms))).
(* pipelines/parameters.py:254-255: the size of a set *)
Definition len (h : heap) (x : nat) : result nat :=
  let! ms := maps h x true in Ok (length (nodup Nat.eq_dec (concat (map keys ms)))).
(* collections.abc.Mapping.items through 277-290 *)
Definition items (h : heap) (x : nat) : result (list (key * value)) :=
  let! ks := iter_keys h x true in
  mapM (fun k => let! v := getitem h x k in Ok (k, v)) ks.
(* pipelines/parameters.py:78-82: dict of the items or of the own map *)
Definition todict (h : heap) (x : nat) (full : bool) : result (list (key * value)) :=
  if full then items h x else Ok (local_map h x).
(* pipelines/parameters.py:292-299; a generator cannot be sliced *)
Definition contains (h : heap) (x : nat) (k : key) : result bool :=
  let! ms := maps h x true in Ok (existsb (mem Nat.eqb k) ms).
Definition isinheritedkey (h : heap) (x : nat) (k : key) : result bool := Err TypeError.
Definition islocalkey (h : heap) (x : nat) (k : key) : bool := mem Nat.eqb k (local_map h x).

(* pipelines/parameters.py:168-179: the key is noted when the body of _changekey succeeds *)
Definition store (h : heap) (x : nat) (k : key) (v : value) : heap :=
  alter h x (fun c => with_fresh (with_data c (assign Nat.eqb k v (data c))) (k :: fresh c)).

(* pipelines/parameters.py:193-217, 219-233, 508-534 and 577-588.
   The content hash of a SubNode needs its length, which needs its parent, which is
   a SubNodeReferenceUp.  That class does not define the abstract property "name" of
   BaseNode, so it cannot be instantiated (TypeError).  For the same reason a SubNode
   that was just made can neither be given a key (self[key] looks at the parent) nor
   tell whether it was changed. *)
Definition setitem (h : heap) (x : nat) (k : key) (g : given) : heap * result unit :=
  let go :=
    match g with
    | GPlain z => (store h x k (Plain z), Ok tt)
    | GDict _ =>
        match lookup Nat.eqb k (local_map h x) with
        | None => (store h x k Sub, Err TypeError)
        | Some Sub => (h, Err TypeError)
        | Some (Plain _) => (h, Err RuntimeError)
        end
    end in
  match getitem h x k with
  | Ok Sub => (h, Err TypeError)
  | Ok (Plain u) =>
      match g with
      | GPlain z => if Z.eqb u z then (h, Ok tt) else go
      | GDict _ => go
      end
  | Err KeyError => go
  | Err e => (h, Err e)
  end.

(* collections.abc.MutableMapping.update with a dictionary *)
Fixpoint update (h : heap) (x : nat) (d : list (key * given)) : heap * result unit :=
  match d with
  | [] => (h, Ok tt)
  | (k, g) :: d' => match setitem h x k g with (h', Ok _) => update h' x d' | r => r end
  end.

(* pipelines/parameters.py:235-241 *)
Definition delete_local (h : heap) (x : nat) (k : key) : heap :=
  if mem Nat.eqb k (local_map h x)
  then alter h x (fun c => with_fresh (with_data c (remove_key Nat.eqb k (data c))) (k :: fresh c))
  else h.
(* pipelines/parameters.py:243-248 *)
Fixpoint delete_rec (n : nat) (k : key) (h : heap) (x : nat) (local : bool) : result heap :=
  match n with
  | O => Err RuntimeError
  | S n' =>
      let h := if local then delete_local h x k else h in
      foldM (fun h c => delete_rec n' k h c true) h (children h x)
  end.
Definition delete_recursive (h : heap) (x : nat) (k : key) (local : bool) : result heap := delete_rec (length h) k h x local.
(* pipelines/parameters.py:250-252 *)
Definition delitem (h : heap) (x : nat) (k : key) : result heap := delete_recursive h x k true.

(* pipelines/parameters.py:93-98 *)
Definition update_recursive (h : heap) (x : nat) (d : list (key * given)) : heap * result unit :=
  match update h x d with
  | (h, Ok _) =>
      match foldM (fun h kg => delete_recursive h x (fst kg) false) h d with
      | Ok h => (h, Ok tt)
      | Err e => (h, Err e)
      end
  | r => r
  end.

(* pipelines/parameters.py:84-91; a node has no attribute "inherited" *)
Definition fromdict (h : heap) (x : nat) (d : list (key * given)) (override recursive : bool) : heap * result unit :=
  if negb override && negb (match d with [] => true | _ => false end) then (h, Err AttributeError)
  else if recursive then update_recursive h x d else update h x d.

(* collections.abc.MutableMapping.pop (without default), popitem and clear *)
Definition pop (h : heap) (x : nat) (k : key) : result (heap * value) :=
  let! v := getitem h x k in
  let! h := delitem h x k in
  Ok (h, v).
Definition popitem (h : heap) (x : nat) : result (heap * (key * value)) :=
  let! ks := iter_keys h x true in
  match ks with
  | [] => Err KeyError
  | k :: _ => let! v := getitem h x k in let! h := delitem h x k in Ok (h, (k, v))
  end.
(* popitem until KeyError, at most n times; None when that is not enough *)
Fixpoint clear (n : nat) (h : heap) (x : nat) : option heap :=
  match n with
  | O => None
  | S n' =>
      match popitem h x with
      | Ok (h', _) => clear n' h' x
      | Err _ => Some h
      end
  end.

(* ---- changes ---- *)

(* pipelines/parameters.py:353-359: the content of the own map; TypeError for a SubNode as above *)
Definition hash_local (m : list (key * value)) : result (list (key * Z)) :=
  mapM (fun kv => match snd kv with Plain z => Ok (fst kv, z) | Sub => Err TypeError end) m.
(* pipelines/parameters.py:361-363: the own map and those of all ancestors *)
Definition snapshot (h : heap) (x : nat) : result (list (list (key * Z))) :=
  let! ms := maps h x true in mapM hash_local ms.

(* equality of the hashes of two dictionaries: the order of the keys does not matter *)
Definition same_map (a b : list (key * Z)) : bool :=
  Nat.eqb (length a) (length b) &&
  forallb (fun kv => match lookup Nat.eqb (fst kv) b with Some z => Z.eqb z (snd kv) | None => false end) a.
Fixpoint same_maps (a b : list (list (key * Z))) : bool :=
  match a, b with
  | [], [] => true
  | m :: a', n :: b' => same_map m n && same_maps a' b'
  | _, _ => false
  end.

(* pipelines/parameters.py:365-367 *)
Definition changed (h : heap) (x : nat) : result bool :=
  let! s := snapshot h x in
  Ok (match match nth_error h x with Some c => last c | None => None end with
      | None => true
      | Some t => negb (same_maps s t)
      end).
(* pipelines/parameters.py:369-376 *)
Definition set_changed (h : heap) (x : nat) (b : bool) : result heap :=
  if b then Ok (alter h x (fun c => with_fresh (with_last c None) (keys (data c))))
  else let! s := snapshot h x in Ok (alter h x (fun c => with_fresh (with_last c (Some s)) [])).

(* pipelines/parameters.py:378-385; the values are looked at for SubNodes, whose
   reset_state looks at their parent (TypeError) *)
Definition is_sub (v : value) : bool := match v with Sub => true | Plain _ => false end.
Fixpoint reset_rec (n : nat) (b recursive : bool) (h : heap) (x : nat) : result heap :=
  match n with
  | O => Err RuntimeError
  | S n' =>
      let! h := set_changed h x b in
      let! vs := items h x in
      if existsb (fun kv => is_sub (snd kv)) vs then Err TypeError
      else if recursive then foldM (fun h c => reset_rec n' b recursive h c) h (children h x)
      else Ok h
  end.
Definition reset_state (h : heap) (x : nat) (b recursive : bool) : result heap := reset_rec (length h) b recursive h x.

(* pipelines/parameters.py:100-122 and 257-275: the keys of the items with whether they
   are of the node itself and whether they are marked as changed *)
Definition annotate (h : heap) (localcontext : bool) (y : nat) : list (key * (bool * bool)) :=
  match nth_error h y with
  | None => []
  | Some c => map (fun kv => (fst kv, (localcontext, existsb (Nat.eqb (fst kv)) (fresh c)))) (data c)
  end.
Fixpoint unique_annotated (seen : list key) (l : list (key * (bool * bool))) : list (key * (bool * bool)) :=
  match l with
  | [] => []
  | a :: l' => if existsb (Nat.eqb (fst a)) seen then unique_annotated seen l' else a :: unique_annotated (fst a :: seen) l'
  end.
Definition annotated_keys (h : heap) (x : nat) : result (list (key * (bool * bool))) :=
  let! l := iter_up h x in
  Ok (unique_annotated [] (concat (match l with [] => [] | y :: l' => annotate h true y :: map (annotate h false) l' end))).
(* pipelines/parameters.py:22-24: AnnotatedKey has no attribute "local" *)
Definition annotated_inherited (a : key * (bool * bool)) : result bool := Err AttributeError.
