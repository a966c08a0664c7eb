(* Model of src/spectrocrunch/utils/lut.py (numbers as exact rationals, one fixed
   unit for x and one for y). *)
From Verif Require Export Base QcTac ListToolsModel.
Local Open Scope Qc_scope.

(* utils/lut.py:63-67 and the attributes x, y, _func, default.  [lx]: None when
   empty, else the x and y arrays; [lf]: the points _func was built from.
   default None stands for nan. *)
Record lut : Type := {
  lxy : option (list Qc * list Qc);
  lf : option (list (Qc * Qc));
  ldefault : option Qc
}.

Definition lut_clear (default : option Qc) : lut :=
  {| lxy := None; lf := None; ldefault := default |}.

(* utils/lut.py:130-168 _new_data with two array arguments.  The state is also
   returned when an exception is raised: on an empty table x and y are stored
   (lines 147-149) before unpacking the result of sort2lists/unique2lists can
   raise ValueError (lines 158-159). *)
Definition new_data (addflag : bool) (x y : list Qc) (t : lut) : result unit * lut :=
  let '(t1, x1, y1) :=
    match lxy t with
    | None => ({| lxy := Some (x, y); lf := lf t; ldefault := ldefault t |}, x, y)
    | Some (ox, oy) => (t, x ++ ox, y ++ oy)
    end in
  let u := if addflag then Ok (unique2lists_add Qc_eqb Qcplus 0 x1 y1)
           else unique2lists_first Qc_eqb x1 y1 in
  match u with
  | Err e => (Err e, t1)
  | Ok (ux, uy) =>
      match sort2lists Qc_leb ux uy with
      | None => (Err ValueError, t1)
      | Some (sx, sy) =>
          (Ok tt, {| lxy := Some (sx, sy); lf := Some (combine sx sy); ldefault := ldefault t |})
      end
  end.

(* utils/lut.py:170-174 *)
Inductive lutop : Type := LAdd (x y : list Qc) | LReplace (x y : list Qc).
Definition lut_apply (op : lutop) (t : lut) : result unit * lut :=
  match op with
  | LAdd x y => new_data true x y t
  | LReplace x y => new_data false x y t
  end.

(* A sequence of operations, stopping at the first exception. *)
Fixpoint lut_run (ops : list lutop) (t : lut) : result unit * lut :=
  match ops with
  | [] => (Ok tt, t)
  | op :: ops' =>
      match lut_apply op t with
      | (Ok _, t1) => lut_run ops' t1
      | (Err e, t1) => (Err e, t1)
      end
  end.

(* numpy searchsorted(xs, v) (side left) on sorted xs *)
Fixpoint searchsorted (xs : list Qc) (v : Qc) : nat :=
  match xs with
  | [] => O
  | x :: xs' => if Qc_ltb x v then S (searchsorted xs' v) else O
  end.

(* scipy interp1d, kind="linear", bounds_error=False, fill_value=(y[0], y[-1]),
   on at least two points with increasing x: _call_linear with the index clipped
   to 1..n-1, then the fill values outside the range. *)
Definition interp_linear (pts : list (Qc * Qc)) (v : Qc) : result Qc :=
  let n := length pts in
  let! p0 := py_get pts 0%Z in
  let! pl := py_get pts (-1)%Z in
  if Qc_ltb v (fst p0) then Ok (snd p0)
  else if Qc_ltb (fst pl) v then Ok (snd pl)
  else
    let hi := Nat.max 1 (Nat.min (searchsorted (map fst pts) v) (n - 1)) in
    match nth_error pts (hi - 1), nth_error pts hi with
    | Some (xlo, ylo), Some (xhi, yhi) =>
        Ok ((yhi - ylo) / (xhi - xlo) * (v - xlo) + ylo)
    | _, _ => Err IndexError
    end.

(* utils/lut.py:118-128 and 162-168: __call__ on one value; None is nan.
   A table whose _func is still None cannot be called (TypeError). *)
Definition lut_call (t : lut) (v : Qc) : result (option Qc) :=
  match lxy t with
  | None => Ok (ldefault t)
  | Some _ =>
      match lf t with
      | None => Err TypeError
      | Some [(_, y)] => Ok (Some y)
      | Some pts => let! r := interp_linear pts v in Ok (Some r)
      end
  end.

(* utils/lut.py:112-116 __len__ (len(None) raises TypeError, which gives 1) *)
Definition lut_len (t : lut) : nat :=
  match lxy t with Some (x, _) => length x | None => 1 end.
