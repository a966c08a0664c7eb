(* Model of src/spectrocrunch/process/nxresample.py on the model of process/axis.py: the encoder positions at which the lines
   of a map are interpolated (_encoder), the new shape and the order in which the map is processed.  Units are those of the
   motor and the encoder; the interpolation itself (scipy.interpolate.griddata) is not modelled. *)
From Verif Require Import Base QcTac AxisModel.
Local Open Scope Qc_scope.

(* 188-190 offset: None, a plain number or a pint quantity *)
Inductive offset : Type := NoOffset | Plain_ (q : Qc) | Quantity_ (q : Qc).
Definition given (o : offset) : option Qc := match o with NoOffset => None | Plain_ q | Quantity_ q => Some q end.

(* np.min and np.max of an array: ValueError when empty *)
Fixpoint lowest (x : Qc) (l : list Qc) : Qc := match l with [] => x | y :: l' => lowest (if Qc_ltb y x then y else x) l' end.
Fixpoint highest (x : Qc) (l : list Qc) : Qc := match l with [] => x | y :: l' => highest (if Qc_ltb x y then y else x) l' end.
Definition np_min (l : list Qc) : result Qc := match l with [] => Err ValueError | x :: l' => Ok (lowest x l') end.
Definition np_max (l : list Qc) : result Qc := match l with [] => Err ValueError | x :: l' => Ok (highest x l') end.

(* Axis.factory(values) *)
Definition factory (values : list Qc) : result axis := simplify (make_plain 0 values).

(* 205-236: the measured encoder positions are lines along the dimension of the axis; start and end of all lines *)
Definition measured (lines : list (list Qc)) (crop increasing : bool) : result (Qc * Qc) :=
  let lim0 := if crop then np_max else np_min in
  let lim1 := if crop then np_min else np_max in
  let! firsts := mapM (fun l => py_get l 0) lines in
  let! lasts := mapM (fun l => py_get l (-1)) lines in
  let! v := (if increasing then lim0 else lim1) firsts in
  let! w := (if increasing then lim1 else lim0) lasts in
  Ok (v, w).

Inductive outcome : Type :=
  | Skipped (position : axis)                              (* no encoder: the axis is not resampled *)
  | Resampled (position encoder : axis) (offset : Qc).

(* 181-258 _encoder *)
Definition encoder (position : axis) (lines : list (list Qc)) (resolution : Qc) (off : offset) (crop : bool) : result outcome :=
  let expected := map (fun x => x * resolution) (a_values position) in
  let! enc := factory (match given off with None => expected | Some o => map (fun x => x + o) expected end) in
  let! s := a_start enc in
  let! e := a_end enc in
  let! (v, w) := measured lines crop (Qc_ltb s e) in
  let o := match given off with None => (v + w) / Qc_of_Z 2 - (s + e) / Qc_of_Z 2 | Some o => o end in
  let! enc := match given off with None => factory (map (fun x => x + o) (a_values enc)) | Some _ => Ok enc end in
  let! new := newlimits enc v w in
  match new with
  | None => Ok (Skipped position)
  | Some enc =>
      (* (encoder - offset) / resolution *)
      let! position := factory (map (fun x => (x - o) / resolution) (a_values enc)) in
      match off with
      | Plain_ _ => Err AttributeError            (* offset.to("dimensionless") *)
      | _ => Ok (Resampled position enc o)
      end
  end.

(* 88-93 resampled_shape: the number of encoder positions or of points *)
Definition resampled_shape (shape : list nat) (encoders : list (option nat)) : list nat :=
  map (fun p => match snd p with None => fst p | Some n => n end) (combine shape encoders).
(* 164-170 _process_indices: itertools.product of the points of the dimensions without encoder and of everything (None) *)
Inductive index : Type := At (i : nat) | All.
Fixpoint product (l : list (list index)) : list (list index) :=
  match l with [] => [[]] | x :: l' => flat_map (fun i => map (cons i) (product l')) x end.
Definition process_indices (shape : list nat) (encoders : list (option nat)) : list (list index) :=
  product (map (fun p => match snd p with None => map At (seq 0 (fst p)) | Some _ => [All] end) (combine shape encoders)).
