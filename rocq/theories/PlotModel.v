(* Model of src/spectrocrunch/io/nxfs.py:_NXdata: the signals of a plot group.
   The group is the list of its members (a data set with its shape, a soft link with the shape of
   what it points to, or a group), and its attributes signal, auxiliary_signals and axes.
   Attributes of data sets, time stamps and values are left out; the file is opened in mode "a".
   Which exception h5py raises when a name is taken or nothing is given to create a data set from
   depends on its version (ValueError and TypeError here). *)
From Verif Require Export ProcModel.

Inductive mem : Type := Dset (shape : list Z) | Link (shape : option (list Z)) | Grp (empty : bool).
Record nxdata : Type := mkData {
  x_mem : list (chars * mem);
  x_signal : option chars;
  x_aux : option (list chars);
  x_axes : list chars }.

Definition set_mem (d : nxdata) (l : list (chars * mem)) : nxdata := mkData l (x_signal d) (x_aux d) (x_axes d).
Fixpoint del {A} (k : chars) (l : list (chars * A)) : list (chars * A) :=
  match l with
  | [] => []
  | (k', v) :: l' => if chars_eqb k k' then l' else (k', v) :: del k l'
  end.

(* self[name].open(mode="r").shape, io/h5fs.py:380-412 *)
Definition read_shape (d : nxdata) (n : chars) : result (list Z) :=
  match lookup n (x_mem d) with
  | Some (Dset s) | Some (Link (Some s)) => Ok s
  | Some (Grp _) => Err AttributeError
  | Some (Link None) | None => Err MissingFile
  end.
(* 734-760 signal, shape *)
Definition data_shape (d : nxdata) : result (list Z) :=
  match x_signal d with Some n => read_shape d n | None => Ok [] end.
(* 1022-1029 *)
Fixpoint axes_sizes (d : nxdata) (l : list chars) : result (list Z) :=
  match l with
  | [] => Ok []
  | a :: l' => let! s := read_shape d a in
               let! r := axes_sizes d l' in
               Ok (fold_right Z.mul 1 s :: r)
  end.
Definition axes_shape (d : nxdata) : result (list Z) := axes_sizes d (x_axes d).

Fixpoint zlist_eqb (a b : list Z) : bool :=
  match a, b with
  | [], [] => true
  | x :: a', y :: b' => Z.eqb x y && zlist_eqb a' b'
  | _, _ => false
  end.

(* how a signal is made: a new data set (or the existing one when nothing is given to create
   it), with the mode of opening; or a link to another data set (None: it does not exist) *)
Inductive mode : Type := ModeA | ModeW | ModeX.
Inductive source : Type := Create (shape : option (list Z)) (m : mode) | LinkTo (target : option (list Z)).

(* 822-843: check the dimensions *)
Definition check_shape (d : nxdata) (name : chars) (src : source) : result unit :=
  let! a := axes_shape d in
  let! a := match a with [] => data_shape d | _ => Ok a end in
  match a with
  | [] => Ok tt
  | _ =>
      let! s := match src with
                | Create (Some s) _ => Ok s
                | Create None _ => read_shape d name
                | LinkTo (Some s) => Ok s
                | LinkTo None => Err MissingFile
                end in
      if zlist_eqb s a then Ok tt else Err FormatError
  end.

(* io/h5fs.py:380-412 opening a node, 661-690 link: the members afterwards *)
Definition create (d : nxdata) (name : chars) (src : source) : list (chars * mem) * result unit :=
  let l := x_mem d in
  match src with
  | LinkTo t =>
      match lookup name l with
      | Some _ => (l, Err ValueError)
      | None => (insert name (Link t) l, Ok tt)
      end
  | Create s m =>
      let make l := match lookup name l, s with
                    | Some _, _ => (l, Err ValueError)      (* a link to nothing has the name *)
                    | None, Some s => (insert name (Dset s) l, Ok tt)
                    | None, None => (l, Err TypeError)
                    end in
      match lookup name l with
      | None | Some (Link None) => make l
      | Some x =>
          match m with
          | ModeX => (l, Err AlreadyExists)
          | ModeW => match x, s with
                     | Grp _, Some _ => (l, Err NotAFile)
                     | Grp _, None => make (del name l)
                     | _, None => (l, Err NotADirectory)
                     | _, Some _ => make (del name l)
                     end
          | ModeA => match s with
                     | Some _ => (l, Err AlreadyExists)
                     | None => match x with
                               | Grp _ => (l, Err AttributeError)   (* node.ndim *)
                               | _ => (l, Ok tt)
                               end
                     end
          end
      end
  end.

Definition auxs (d : nxdata) : list chars := match x_aux d with Some l => l | None => [] end.
Definition sigs (d : nxdata) : list chars := match x_signal d with Some n => [n] | None => [] end.

(* 805-880 add_signal *)
Definition add_signal (d : nxdata) (name : chars) (src : source) : nxdata * result unit :=
  match check_shape d name src with
  | Err x => (d, Err x)
  | Ok _ =>
      match create d name src with
      | (l, Err x) => (set_mem d l, Err x)
      | (l, Ok _) =>
          let signals := auxs d ++ sigs d in
          (mkData l (Some name) (match signals with [] => x_aux d | _ => Some signals end) (x_axes d), Ok tt)
      end
  end.

(* 891-910 default_signal *)
Definition default_signal (d : nxdata) (name : chars) : nxdata * bool :=
  if match x_signal d with Some n => chars_eqb name n | None => false end then (d, true)
  else
    let signals := sigs d ++ auxs d in
    if existsb (chars_eqb name) signals then
      let aux := filter (fun s => negb (chars_eqb s name)) signals in
      (mkData (x_mem d) (Some name) (match aux with [] => x_aux d | _ => Some aux end) (x_axes d), true)
    else (d, false).

(* 912-927 remove_signal, io/h5fs.py:603-619 remove *)
Definition remove_signal (d : nxdata) (name : chars) : nxdata * result unit :=
  match lookup name (x_mem d) with
  | Some (Grp false) => (d, Err NotEmpty)
  | _ =>
      let l := del name (x_mem d) in
      match x_aux d with
      | None => (set_mem d l, Ok tt)
      | Some aux =>
          match x_signal d with
          | None => (mkData l None None (x_axes d), Err AttributeError)
          | Some n =>
              if chars_eqb n name then
                match aux with
                | [] => (mkData l (x_signal d) None (x_axes d), Err IndexError)
                | _ => (mkData l (Some (last aux [])) (match removelast aux with [] => None | r => Some r end) (x_axes d), Ok tt)
                end
              else
                let r := filter (fun s => negb (chars_eqb s name)) aux in
                (mkData l (x_signal d) (match r with [] => None | _ => Some r end) (x_axes d), Ok tt)
          end
      end
  end.

(* sorted() *)
Fixpoint put_in (n : chars) (l : list chars) : list chars :=
  match l with
  | [] => [n]
  | m :: l' => if chars_ltb m n then m :: put_in n l' else n :: l
  end.
Definition sort_names (l : list chars) : list chars := fold_right put_in [] l.
Fixpoint names_eqb (a b : list chars) : bool :=
  match a, b with
  | [], [] => true
  | x :: a', y :: b' => chars_eqb x y && names_eqb a' b'
  | _, _ => false
  end.
(* 929-943 sort_signals; other: the signals of another plot group *)
Definition sort_signals (d : nxdata) (other : option (list chars)) : nxdata * result unit :=
  match x_signal d with
  | None => (d, Err AttributeError)
  | Some n =>
      let signals := sort_names (n :: auxs d) in
      let set l := match l with
                   | [] => (d, Err IndexError)
                   | s :: aux => (mkData (x_mem d) (Some s) (match aux with [] => x_aux d | _ => Some aux end) (x_axes d), Ok tt)
                   end in
      match other with
      | None => set signals
      | Some o => if names_eqb (sort_names o) signals then set o else (d, Ok tt)
      end
  end.

(* a sequence of operations; an exception does not stop it *)
Inductive op : Type := Add (name : chars) (src : source) | Remove (name : chars) | Default (name : chars)
  | SortBy (other : option (list chars)).
Definition step (d : nxdata) (o : op) : nxdata :=
  match o with
  | Add n s => fst (add_signal d n s)
  | Remove n => fst (remove_signal d n)
  | Default n => fst (default_signal d n)
  | SortBy o => fst (sort_signals d o)
  end.
Definition empty_data : nxdata := mkData [] None None [].
