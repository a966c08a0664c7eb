(* Model of src/spectrocrunch/align/alignSource.py and alignDest.py for stacks of images that are arrays (numpy arrays or HDF5 datasets),
   and of the loop of align/align.py that copies the images when nothing has to be transformed. Files with one image each are not here.
   An HDF5 dataset is read and written like a numpy array. *)
From Verif Require Export SetitemModel.
From Verif Require ListToolsModel.
Local Open Scope nat_scope.

Section Stacks.
(* V: the numbers. cast: astype(dtype) of the destination, element by element. refill a shape: the elements of an array after it was given another
   shape in place (np.ndarray.resize, h5py.Dataset.resize). A type of numbers is a natural number. *)
Context {V : Type} (cast : V -> V) (refill : arr V -> list nat -> list nat -> V).

(* self.datasets, self.stackdim, self.nimages, self.imgsize *)
Record stack : Type := { sets : list (arr V); dim : Z; nimages : nat; imgsize : list nat }.

(* alignSource.py 24-29, alignDest.py 29-34 *)
Definition check_dim (stackdim : option Z) : result Z :=
  match stackdim with
  | None => Ok 2%Z
  | Some d => if (d <? 0)%Z || (2 <? d)%Z then Err ValueError else Ok d
  end.

(* alignSource.py 93-99: the stack dimension (only stored in the object) and the shape *)
Definition initshape (d : Z) (s : list nat) : result (Z * list nat) :=
  if 3 <? length s then Err ValueError
  else if length s <? 3 then Ok (2%Z, s ++ repeat 1 (3 - length s))
  else Ok (d, s).

(* alignSource.py 24-91; checked: datasets in an HDF5 file or group (35-43, 63-72), else a list of arrays (73-86) *)
Definition source_init (checked : bool) (datasets : list (arr V)) (stackdim : option Z) : result stack :=
  let! d := check_dim stackdim in
  match datasets with
  | [] => Err IndexError
  | a :: _ =>
      if checked && negb (forallb (fun b => shape_eqb (shp b) (shp a)) datasets) then Err ValueError
      else
        let! (d', s) := initshape d (shp a) in
        Ok {| sets := datasets; dim := d'; nimages := nth (Z.to_nat d) s 0; imgsize := remove_at (Z.to_nat d) s |}
  end.

Definition dataset {A} (l : list A) (j : nat) : result A :=
  match nth_error l j with Some a => Ok a | None => Err IndexError end.

(* alignSource.py 101-122 *)
Definition readimg (s : stack) (j : nat) (i : Z) : result (arr V) :=
  let! a := dataset (sets s) j in
  let! data := np_getitem a (Tup (if (dim s =? 0)%Z then [Num i; Ell]
                                  else if (dim s =? 1)%Z then [Sl slice_all; Num i; Sl slice_all]
                                  else [Ell; Num i])) in
  if Nat.eqb (length (shp data)) 1 then np_getitem data (Tup [Ell; New]) else Ok data.

(* alignSource.py 137-138 *)
Definition readimgas (s : stack) (j : nat) (i : Z) : result (arr V) :=
  let! a := readimg s j i in Ok {| shp := shp a; elt := fun o => cast (elt a o) |}.

(* alignDest: self.datasets with their types, self.stackdim, self.overwrite *)
Record target : Type := { outs : list (nat * arr V); odim : Z; overwrite : bool }.

(* alignDest.py 29-35, 65-75 *)
Definition target_init (datasets : list (nat * arr V)) (stackdim : option Z) (ov : bool) : result target :=
  let! d := check_dim stackdim in
  match datasets with
  | [] => Err IndexError
  | _ => Ok {| outs := datasets; odim := d; overwrite := ov |}
  end.

(* alignDest.py 80-81 *)
Definition destshape (t : target) (n : nat) (img : list nat) : result (list nat) :=
  let! a := dataset img 0 in let! b := dataset img 1 in
  ListToolsModel.move [a; b; n] 2 (odim t).

(* alignDest.py 169-170 *)
Definition datasetscheck (t : target) (s : list nat) (dt : nat) : bool :=
  forallb (fun d => shape_eqb (shp (snd d)) s && Nat.eqb (fst d) dt) (outs t).

(* alignDest.py 172-193, 195-206. When an error is raised some datasets may have got their new shape already. *)
Fixpoint resize_all (s : list nat) (dt : nat) (l : list (nat * arr V)) : result (list (nat * arr V)) :=
  match l with
  | [] => Ok []
  | (t, a) :: l' => if negb (Nat.eqb t dt) then Err ValueError
                    else let! r := resize_all s dt l' in Ok ((t, {| shp := s; elt := refill a s |}) :: r)
  end.
Definition prepare (t : target) (n : nat) (img : list nat) (dt : nat) : result target :=
  let! s := destshape t n img in
  if datasetscheck t s dt then Ok t
  else if overwrite t then
    let! l := resize_all s dt (outs t) in Ok {| outs := l; odim := odim t; overwrite := overwrite t |}
  else Err ValueError.

(* alignDest.py 221-230 *)
Definition writeimg (t : target) (img : arr V) (j : nat) (i : Z) : result target :=
  let! index := ListToolsModel.move [Sl slice_all; Sl slice_all; Num i] 2 (odim t) in
  let! (dt, a) := dataset (outs t) j in
  let! a' := np_putitem (fun _ v => v) a (Tup index) img in
  Ok {| outs := set_nth (outs t) j (dt, a'); odim := odim t; overwrite := overwrite t |}.

(* align.py 164-167 *)
Definition copyimg (s : stack) (t : target) (j : nat) (i : Z) : result target :=
  let! img := readimgas s j i in writeimg t img j i.

(* align.py 703-710, 748, 792-795: preparedestination() for the size of the images, then every image of every stack *)
Fixpoint copy_sets (s : stack) (i : Z) (js : list nat) (t : target) : result target :=
  match js with [] => Ok t | j :: js' => let! t' := copyimg s t j i in copy_sets s i js' t' end.
Fixpoint copy_images (s : stack) (is : list nat) (t : target) : result target :=
  match is with
  | [] => Ok t
  | i :: is' => let! t' := copy_sets s (Z.of_nat i) (seq 0 (length (sets s))) t in copy_images s is' t'
  end.
Definition copy_all (s : stack) (t : target) (dt : nat) : result target :=
  let! t' := prepare t (nimages s) (imgsize s) dt in
  copy_images s (seq 0 (nimages s)) t'.
(* align.py 41-48: the destination gets the stack dimension of the source *)
Definition align_copy (checked : bool) (src : list (arr V)) (stackdim : option Z) (dst : list (nat * arr V)) (ov : bool) (dt : nat) : result (list (arr V)) :=
  let! s := source_init checked src stackdim in
  let! t := target_init dst (Some (dim s)) ov in
  let! t' := copy_all s t dt in
  Ok (map snd (outs t')).
End Stacks.
