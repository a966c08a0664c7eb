(* Model of the straight-line fits and of the error propagation of linear least squares
   in src/spectrocrunch/math/fit1d.py.  Numbers are exact; None is a value that is not
   finite (inf or nan).  Standard deviations are modelled by their squares. *)
From Verif Require Export MatModel.

Definition qsum (l : list Qc) : Qc := fold_right Qcplus 0%Qc l.
(* x * y for arrays; lengths that differ are refused.  Broadcasting of one-element
   arrays is not modelled. *)
Definition times (x y : list Qc) : result (list Qc) :=
  if (length x =? length y)%nat then Ok (map (fun p => fst p * snd p)%Qc (combine x y)) else Err ValueError.
(* division of numpy floats *)
Definition fdiv (a b : Qc) : option Qc := if Qc_eqb b 0 then None else Some (a / b)%Qc.
Definition qlen {A} (x : list A) : Qc := Qc_of_Z (Z.of_nat (length x)).

(* math/fit1d.py:246-268 linfit2: slope and intercept; with errors, also the squares of
   their standard deviations.  has_vare: the argument vare is given. *)
Definition linfit2 (x y : list Qc) (has_vare : bool) : result (option Qc * option Qc) :=
  if has_vare then Err NotImplementedError
  else
    let n := qlen x in
    let! xy := times x y in
    let! xx := times x x in
    let Sxy := qsum xy in
    let Sxx := qsum xx in
    let Sx := qsum x in
    let Sy := qsum y in
    let denom := (n * Sxx - Sx * Sx)%Qc in
    let mnum := (n * Sxy - Sx * Sy)%Qc in
    let bnum := (Sxx * Sy - Sx * Sxy)%Qc in
    Ok (fdiv mnum denom, fdiv bnum denom).
Definition linfit2_errors (x y : list Qc) (has_vare : bool)
    : result ((option Qc * option Qc) * (option Qc * option Qc)) :=
  let! sol := linfit2 x y has_vare in
  let n := qlen x in
  let! xy := times x y in
  let! xx := times x x in
  let! yy := times y y in
  let Sxy := qsum xy in
  let Sxx := qsum xx in
  let Sx := qsum x in
  let Sy := qsum y in
  let denom := (n * Sxx - Sx * Sx)%Qc in
  let mnum := (n * Sxy - Sx * Sy)%Qc in
  let Syy := qsum yy in
  match fst sol with
  | None => Ok (sol, (None, None))
  | Some m =>
      let num := (n * Syy - Sy * Sy - m * mnum)%Qc in
      Ok (sol, (fdiv num ((n - Qc_of_Z 2) * denom), fdiv (num * Sxx) (n * (n - Qc_of_Z 2) * denom))%Qc)
  end.

(* math/fit1d.py:36-38 xyremovenan; None is nan.  The lengths must agree. *)
Definition xyremovenan (x y : list (option Qc)) : result (list Qc * list Qc) :=
  if (length x =? length y)%nat then
    Ok (split (flat_map (fun p => match p with (Some a, Some b) => [(a, b)] | _ => [] end) (combine x y)))
  else Err ValueError.
(* math/fit1d.py:276-278 nanlinfit2 *)
Definition nanlinfit2 (x y : list (option Qc)) (has_vare : bool) : result (option Qc * option Qc) :=
  let! (x, y) := xyremovenan x y in linfit2 x y has_vare.

(* math/fit1d.py:309-320 linfit_zerointercept2 *)
Definition linfit_zerointercept2 (x y : list Qc) : result (option Qc) :=
  let! xy := times x y in
  let! xx := times x x in
  Ok (fdiv (qsum xy) (qsum xx)).
Definition linfit_zerointercept2_errors (x y : list Qc) : result (option Qc * option Qc) :=
  let! m := linfit_zerointercept2 x y in
  let! xy := times x y in
  let! xx := times x x in
  let! yy := times y y in
  let Sxy := qsum xy in
  let Sxx := qsum xx in
  let Syy := qsum yy in
  match m with
  | None => Ok (m, None)
  | Some s => Ok (m, fdiv (Syy + s * s * Sxx - Qc_of_Z 2 * s * Sxy) ((qlen x - 1) * Sxx))%Qc
  end.

(* ---- error propagation ---- *)
Definition rows (A : arr Qc) : nat := nth 0 (shp A) 0%nat.
Definition cols (A : arr Qc) : nat := nth 1 (shp A) 0%nat.
Definition mat (m n : nat) (f : nat -> nat -> Qc) : arr Qc :=
  {| shp := [m; n]; elt := fun o => match o with [i; j] => f i j | _ => 0%Qc end |}.
Definition transpose (A : arr Qc) : arr Qc := mat (cols A) (rows A) (fun i j => entries A j i).
(* A.dot(B) *)
Definition dot (A B : arr Qc) : result (arr Qc) :=
  if negb (cols A =? rows B)%nat then Err ValueError
  else Ok (mat (rows A) (cols B) (fun i j => qsumn (cols A) (fun k => entries A i k * entries B k j)%Qc)).
(* np.linalg.inv *)
Definition inv (A : arr Qc) : result (arr Qc) :=
  if negb (rows A =? cols A)%nat then Err LinAlgError
  else
    let n := rows A in
    let d := det n (entries A) in
    if Qc_eqb d 0 then Err LinAlgError
    else Ok (mat n n (fun i j => det n (setcol (entries A) i (fun r => if (r =? j)%nat then 1 else 0)) / d)%Qc).

(* what is known about the errors: their variances or their covariance matrix *)
Inductive noise : Type := Vare (v : list Qc) | Cove (c : arr Qc).

(* math/fit1d.py:46-88 lstsq_cov, for a matrix A of shape [m; n].  The variances must
   not be zero when m = n (the result is then not finite: None). *)
Definition lstsq_cov_square (A : arr Qc) (e : noise) : result (option (arr Qc)) :=
  match e with
  | Vare v =>
      if negb (length v =? rows A)%nat then Err ValueError
      else if existsb (fun q => Qc_eqb q 0) v then Ok None
      else
        let! B := dot (transpose A) (mat (rows A) (cols A) (fun i j => entries A i j / nth i v 0)%Qc) in
        let! C := inv B in
        Ok (Some C)
  | Cove c =>
      let! iA := inv A in
      let! B := dot c (transpose iA) in
      let! C := dot iA B in
      Ok (Some C)
  end.
Definition lstsq_cov (A : arr Qc) (e : noise) : result (option (arr Qc)) :=
  let general :=
    let! AA := dot (transpose A) A in
    let! iAA := inv AA in
    let! M := dot iAA (transpose A) in
    match e with
    | Vare v =>
        if negb (length v =? rows A)%nat then Err ValueError
        else
          let! C := dot (mat (cols A) (rows A) (fun i j => entries M i j * nth j v 0)%Qc) (transpose M) in
          Ok (Some C)
    | Cove c =>
        let! B := dot M c in
        let! C := dot B (transpose M) in
        Ok (Some C)
    end
  in
  if (rows A =? cols A)%nat then
    match lstsq_cov_square A e with
    | Err LinAlgError => general
    | r => r
    end
  else general.

(* np.var(r, ddof=k) *)
Definition np_var (r : list Qc) (k : nat) : option Qc :=
  match r with
  | [] => None
  | _ =>
    let mean := (qsum r / qlen r)%Qc in
    fdiv (qsum (map (fun q => (q - mean) * (q - mean))%Qc r)) (qlen r - Qc_of_Z (Z.of_nat k))
  end.
(* math/fit1d.py:91-113 lstsq_std: the squares.  sol is the solution of the system. *)
Definition lstsq_std (A : arr Qc) (b sol : list Qc) (e : option noise) : result (option (list Qc)) :=
  let! e :=
    match e with
    | Some e => Ok (Some e)
    | None =>
        if negb (length b =? rows A)%nat || negb (length sol =? cols A)%nat then Err ValueError
        else
          let r := map (fun i => qsumn (cols A) (fun k => entries A i k * nth k sol 0) - nth i b 0)%Qc (seq 0 (rows A)) in
          Ok (option_map (fun v => Vare (repeat v (length b))) (np_var r (length sol)))
    end in
  match e with
  | None => Ok None
  | Some e =>
      let! C := lstsq_cov A e in
      Ok (option_map (fun C => map (fun i => entries C i i) (seq 0 (rows C))) C)
  end.
(* the matrices of linfit (244) and linfit_zerointercept (301) *)
Definition line_matrix (x : list Qc) : arr Qc :=
  mat (length x) 2 (fun i j => if (j =? 0)%nat then nth i x 0 else 1)%Qc.
Definition origin_matrix (x : list Qc) : arr Qc := mat (length x) 1 (fun i _ => nth i x 0%Qc).
