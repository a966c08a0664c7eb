(* Model of src/spectrocrunch/math/quadrics.py and math/lsqlin.py.
   Matrices are numpy arrays (NumpyModel) with exact entries; points and parameters are lists of numbers.
   Division by zero (numpy: inf or nan) is Err ZeroDivisionError. Of lsqlin, the quadratic program that is
   handed to cvxopt is modelled, with the shape checks of cvxopt.solvers.qp; the solver itself, the option
   dictionary, the initial values x0 and cvxopt matrices as input are not. *)
From Verif Require Export FitModel.
Local Open Scope Qc_scope.

(* A[i, j] = v for a list of positions *)
Definition set (A : nat -> nat -> Qc) (i j : nat) (v : Qc) : nat -> nat -> Qc :=
  fun a b => if ((a =? i) && (b =? j))%nat then v else A a b.
Definition assign (A : nat -> nat -> Qc) (l : list (nat * nat * Qc)) : nat -> nat -> Qc :=
  fold_left (fun A e => match e with (i, j, v) => set A i j v end) l A.
Definition zeros : nat -> nat -> Qc := fun _ _ => 0.
Definition column (n : nat) (e : nat * Qc) : nat * nat * Qc := (fst e, n, snd e).
Definition row (n : nat) (e : nat * Qc) : nat * nat * Qc := (n, fst e, snd e).
Definition diagonal (e : nat * Qc) : nat * nat * Qc := (fst e, fst e, snd e).

(* quadrics 13-31; u with another length is refused by x0.dot(u) *)
Definition plane (x0 u : list Qc) : result (arr Qc) :=
  let n := length x0 in
  let u2 := map (fun v => v / Q2Qc (2#1)) u in
  let! p := times x0 u in
  let l := combine (seq 0 n) u2 in
  Ok (mat (S n) (S n) (assign zeros (map (row n) l ++ map (column n) l ++ [(n, n, - qsum p)]))).
(* 67-90; semi-axes of length one are broadcast *)
Definition quadsum1 (x0 a : list Qc) (n : nat) (ind : list nat) : result (arr Qc) :=
  let a := match a with [s] => map (fun _ => s) x0 | _ => a end in
  let! a2 := times a a in
  let! _ := times x0 a2 in
  if existsb (fun s => Qc_eqb s 0) a2 then Err ZeroDivisionError
  else
    let! p := times x0 (map (fun s => / s) a2) in
    let! d := times p x0 in
    let q := combine ind (map Qcopp p) in
    Ok (mat (S n) (S n) (assign zeros (map (row n) q ++ map (column n) q ++ map diagonal (combine ind (map (fun s => / s) a2)) ++ [(n, n, qsum d - 1)]))).
(* 34-46 *)
Definition ellipsoid (x0 a : list Qc) : result (arr Qc) := quadsum1 x0 a (length x0) (seq 0 (length x0)).
(* list.pop(axis) *)
Definition pop {A} (l : list A) (axis : Z) : result (list A) :=
  let n := Z.of_nat (length l) in
  let k := (if axis <? 0 then axis + n else axis)%Z in
  if ((k <? 0) || (n <=? k))%Z then Err IndexError else Ok (firstn (Z.to_nat k) l ++ skipn (S (Z.to_nat k)) l).
(* 49-64 *)
Definition cylinder (x0 a : list Qc) (axis : Z) : result (arr Qc) :=
  let n := S (length x0) in
  let! ind := pop (seq 0 n) axis in
  quadsum1 x0 a n ind.
(* 93-104 *)
Definition change_of_frame (A C : arr Qc) : result (arr Qc) := let! B := dot A C in dot (transpose C) B.

(* ---- lsqlin ---- *)
(* a matrix as passed by the user: a numpy array or a scipy sparse matrix of m x n with its entries *)
Inductive input : Type := Dense (A : arr Qc) | Sparse (m n : nat) (l : list (nat * nat * Qc)).
Definition entry_of (l : list (nat * nat * Qc)) (i j : nat) : Qc :=
  qsum (map (fun e => match e with (a, b, v) => if ((a =? i) && (b =? j))%nat then v else 0 end) l).
Definition top (l : list nat) : nat := fold_right Nat.max 0%nat (map S l).
(* 21-23: spmatrix(V, I, J) without size takes the largest indices *)
Definition to_spmatrix (l : list (nat * nat * Qc)) : arr Qc :=
  mat (top (map (fun e => fst (fst e)) l)) (top (map (fun e => snd (fst e)) l)) (entry_of l).
(* 60-75 *)
Definition to_cvxopt (A : input) : arr Qc := match A with Dense A => A | Sparse _ _ l => to_spmatrix l end.
Definition width (A : input) : nat := match A with Dense A => cols A | Sparse _ n _ => n end.
Definition height (A : input) : nat := match A with Dense A => rows A | Sparse m _ _ => m end.
Definition is_sparse (A : option input) : bool := match A with Some (Sparse _ _ _) => true | _ => false end.
(* 33-44: vstack below A; s * eye(n) *)
Definition eye_entries (s : Qc) (n : nat) : list (nat * nat * Qc) := map (fun i => (i, i, s)) (seq 0 n).
Definition stack_eye (sparse : bool) (A : option input) (s : Qc) (n : nat) : result input :=
  match A with
  | None => Ok (if sparse then Sparse n n (eye_entries s n) else Dense (mat n n (fun i j => if (i =? j)%nat then s else 0)))
  | Some A =>
      if negb (width A =? n)%nat then Err ValueError
      else
        match A with
        | Dense A => Ok (Dense (mat (rows A + n) n (fun i j => if (i <? rows A)%nat then entries A i j else if (i - rows A =? j)%nat then s else 0)))
        | Sparse m _ l => Ok (Sparse (m + n) n (l ++ map (fun e => match e with (i, j, v) => (m + i, j, v)%nat end) (eye_entries s n)))
        end
  end.
(* a right-hand side after cvxopt_to_numpy_matrix (78-86): squeeze makes one number of one value *)
Inductive side : Type := Number (v : Qc) | Values (l : list Qc).
Definition squeeze (l : list Qc) : side := match l with [v] => Number v | _ => Values l end.
Definition entire (s : side) (n : nat) : list Qc := match s with Number v => List.repeat v n | Values l => l end.       (* 177-178 *)
(* 47-51: a number cannot be concatenated *)
Definition concatenate (b : option side) (l : list Qc) : result (option side) :=
  match b with
  | None => Ok (Some (Values l))
  | Some (Values b) => Ok (Some (Values (b ++ l)))
  | Some (Number _) => Err ValueError
  end.
(* 60-75 for a vector: the shape of a number is not that of a matrix *)
Definition vector (b : option side) : result (option (list Qc)) :=
  match b with None => Ok None | Some (Values l) => Ok (Some l) | Some (Number _) => Err TypeError end.

(* min x'Px/2 + q'x subject to G x <= h and A x = b *)
Record qp : Type := { qp_P : arr Qc; qp_q : list Qc; qp_G : arr Qc; qp_h : list Qc; qp_A : arr Qc; qp_b : list Qc }.
Definition norows (n : nat) : arr Qc := mat 0 n zeros.
(* cvxopt.solvers.qp: P n x n, q n x 1, G m x n with h of length m, A p x n with b of length p *)
Definition solvers_qp (P : arr Qc) (q : list Qc) (G : option (arr Qc)) (h : option (list Qc)) (A : option (arr Qc)) (b : option (list Qc)) : result qp :=
  let n := length q in
  let G := match G with Some G => G | None => norows n end in
  let h := match h with Some h => h | None => [] end in
  let A := match A with Some A => A | None => norows n end in
  let b := match b with Some b => b | None => [] end in
  if ((rows P =? n) && (cols P =? n) && (cols G =? n) && (length h =? rows G) && (cols A =? n) && (length b =? rows A))%nat
  then Ok {| qp_P := P; qp_q := q; qp_G := G; qp_h := h; qp_A := A; qp_b := b |}
  else Err TypeError.
(* 100-211; numbers lb, ub and beq are lists of one value (as_double, 89-95) *)
Definition lsqlin (C : input) (d : list Qc) (reg : Qc) (A : option input) (b : option (list Qc)) (Aeq : option input) (beq lb ub : option (list Qc)) : result qp :=
  let sparse_case := is_sparse A in
  let C := to_cvxopt C in
  let! Q := dot (transpose C) C in
  let nvars := cols C in
  if negb (length d =? rows C)%nat then Err TypeError                    (* -d.T * C *)
  else
    let q := map (fun j => - qsumn (rows C) (fun i => nth i d 0 * entries C i j)) (seq 0 nvars) in
    let Q := if Qc_ltb 0 reg then mat nvars nvars (fun i j => entries Q i j + (if (i =? j)%nat then reg else 0)) else Q in
    let b := option_map squeeze b in
    let! (A, b) :=
      match lb with
      | None => Ok (A, b)
      | Some l =>
          let l := entire (squeeze l) nvars in
          let! A := stack_eye sparse_case A (- (1)) nvars in
          let! b := concatenate b (map Qcopp l) in
          Ok (Some A, b)
      end in
    let! (A, b) :=
      match ub with
      | None => Ok (A, b)
      | Some l =>
          let l := entire (squeeze l) nvars in
          let! A := stack_eye sparse_case A 1 nvars in
          let! b := concatenate b l in
          Ok (Some A, b)
      end in
    let! h := vector b in
    solvers_qp Q q (option_map to_cvxopt A) h (option_map to_cvxopt Aeq) beq.
(* 214-220 *)
Definition lsqnonneg (C : input) (d : list Qc) : result qp := lsqlin C d 0 None None None None (Some [0]) None.
(* 223-230 *)
Definition lsqnorm (C : input) (d : list Qc) : result qp :=
  lsqlin C d 0 None None (Some (Dense (mat 1 (width C) (fun _ _ => 1)))) (Some [1]) (Some [0]) (Some [1]).
