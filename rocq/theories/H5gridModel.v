(* Model of src/spectrocrunch/process/h5regulargrid.py: the values, the items and the stack dimensions of grids of signals.
   Signals are arrays of one shape; files, slices (utils/indexing.py, modelled in IndexingModel) and negative dimensions are not modelled here. *)
From Verif Require Export Base.
Local Open Scope list_scope.
Local Open Scope nat_scope.

(* list.insert *)
Definition insert_at {A} (d : nat) (x : A) (l : list A) : list A := firstn d l ++ x :: skipn d l.
Definition remove_at {A} (d : nat) (l : list A) : list A := firstn d l ++ skipn (S d) l.

(* 48-64 NXRegularGrid: the signals, their shape, the dimension of the signals and the stack dimension of the signals themselves *)
Record grid (V : Type) : Type := { signals : list (list nat -> V); sshape : list nat; stackdim : nat; stackdim_prev : nat }.
Arguments signals {V} g.
Arguments sshape {V} g.
Arguments stackdim {V} g.
Arguments stackdim_prev {V} g.
(* regulargrid.py:19-21 shape, h5regulargrid.py:54-61 *)
Definition shape {V} (g : grid V) : list nat := insert_at (stackdim g) (List.length (signals g)) (sshape g).
Fixpoint inside (idx sh : list nat) : bool :=
  match idx, sh with
  | [], [] => true
  | i :: idx', n :: sh' => (i <? n) && inside idx' sh'
  | _, _ => false
  end.
(* 87-100 __getitem__ with one integer per dimension *)
Definition getitem {V} (g : grid V) (idx : list nat) : result V :=
  if inside idx (shape g) then
    match nth_error idx (stackdim g) with
    | Some k => match nth_error (signals g) k with Some s => Ok (s (remove_at (stackdim g) idx)) | None => Err IndexError end
    | None => Err IndexError
    end
  else Err IndexError.
(* numpy broadcasting to a shape with as many dimensions *)
Fixpoint broadcastable (src dst : list nat) : bool :=
  match src, dst with
  | [], [] => true
  | s :: src', d :: dst' => ((s =? d) || (s =? 1)) && broadcastable src' dst'
  | _, _ => false
  end.
Fixpoint clip (src idx : list nat) : list nat :=
  match src, idx with
  | s :: src', i :: idx' => (if s =? 1 then 0 else i) :: clip src' idx'
  | _, _ => []
  end.
(* 192-200 values: ret[i] = dset for each signal; None is not set (np.empty) *)
Fixpoint assign_signals (n : nat) (src dst : list nat) (i m : nat) : result unit :=
  match m with
  | 0 => Ok tt
  | S m' => if i <? n then (if broadcastable src dst then assign_signals n src dst (S i) m' else Err ValueError) else Err IndexError
  end.
Definition values {V} (g : grid V) : result (list nat -> option V) :=
  match shape g with
  | [] => Err IndexError
  | n :: dst =>
    let! _ := assign_signals n (sshape g) dst 0 (List.length (signals g)) in
    Ok (fun idx => match idx with
                   | j :: rest => match nth_error (signals g) j with Some s => Some (s (clip (sshape g) rest)) | None => None end
                   | [] => None
                   end)
  end.
(* 62-64 *)
Definition stack_dims {V} (g : grid V) : list nat := [stackdim g; if stackdim g <=? stackdim_prev g then S (stackdim_prev g) else stackdim_prev g].
(* 25-29 NXSignalRegularGrid: no dimension is added *)
Definition signal_stack_dims (stackdim prev : nat) : list nat := [stackdim; if stackdim <=? prev then S prev else prev].
(* regulargrid.py:137-139 *)
Definition other_dims (ndim : nat) (dims : list nat) : list nat := filter (fun i => negb (existsb (Nat.eqb i) dims)) (seq 0 ndim).
(* 119-185 __iadd__, __isub__, __imul__, __idiv__ with a scalar: the signals are changed; the method returns None, which is what the variable is afterwards *)
Definition inplace {V} (op : V -> V) (g : grid V) : grid V * option (grid V) :=
  ({| signals := map (fun s i => op (s i)) (signals g); sshape := sshape g; stackdim := stackdim g; stackdim_prev := stackdim_prev g |}, None).
