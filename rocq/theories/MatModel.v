(* Square systems of linear equations: src/spectrocrunch/math/linalg.py.  Numbers are
   exact; np.linalg.det is the determinant (Laplace expansion). *)
From Verif Require Export Base QcTac NumpyModel.

(* the sum of f 0, ..., f (n - 1) *)
Fixpoint qsumn (n : nat) (f : nat -> Qc) : Qc :=
  match n with O => 0%Qc | S n' => (qsumn n' f + f n')%Qc end.

(* np.linalg.det: expansion along the first row *)
Definition alternate (k : nat) : Qc := if Nat.even k then 1%Qc else (- (1))%Qc.
Definition minor (M : nat -> nat -> Qc) (k : nat) : nat -> nat -> Qc :=
  fun i j => M (S i) (if (j <? k)%nat then j else S j).
Fixpoint det (n : nat) (M : nat -> nat -> Qc) : Qc :=
  match n with
  | O => 1%Qc
  | S n' => qsumn n (fun k => alternate k * M O k * det n' (minor M k))%Qc
  end.

(* Ai[:, i] = b *)
Definition setcol (M : nat -> nat -> Qc) (j : nat) (v : nat -> Qc) : nat -> nat -> Qc :=
  fun r c => if (c =? j)%nat then v r else M r c.

Definition entries (A : arr Qc) : nat -> nat -> Qc := fun i j => elt A [i; j].

(* math/linalg.py:4-17 cramer.  np.linalg.det raises LinAlgError when the array is not a
   square matrix; assigning b to a column broadcasts a single number and raises
   ValueError when the lengths differ. *)
Definition cramer (A : arr Qc) (b : list Qc) : result (list Qc) :=
  match shp A with
  | [nrow; ncol] =>
      if negb (nrow =? ncol)%nat then Err LinAlgError
      else
        let detA := det nrow (entries A) in
        if Qc_eqb detA 0 then Err RuntimeError
        else
          let! v :=
            if (length b =? nrow)%nat then Ok (fun i => nth i b 0%Qc)
            else if (length b =? 1)%nat || (ncol =? 0)%nat then Ok (fun _ => nth 0 b 0%Qc)
            else Err ValueError
          in
          Ok (map (fun i => (det nrow (setcol (entries A) i v) / detA)%Qc) (seq 0 ncol))
  | _ => Err LinAlgError
  end.
