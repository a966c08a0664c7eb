(* Model of src/spectrocrunch/io/mca.py: spectra in the SPEC format.
   A text is a list of tokens; a number is the token of its value ("%.8g " and its rounding are not modelled).
   The reading of files (io/spec.py, PyMca) is not modelled: the header lines and the numbers it returns are arguments. *)
From Verif Require Export Base QcTac.
Local Open Scope list_scope.
Local Open Scope nat_scope.

(* "@A ", a number and a blank, a backslash, the end of a line *)
Inductive tok : Type := Start | Num (x : Qc) | Cont | Newline.
(* 8-24 array2SpecMca: the loop over chunks of 16; [fuel] is the number of values *)
Fixpoint chunks (fuel : nat) (data : list Qc) : list tok :=
  match fuel with
  | 0 => []
  | S f =>
    match data with
    | [] => []
    | _ =>
      if 16 <=? List.length data then
        map Num (firstn 16 data) ++ (if List.length data =? 16 then [] else [Cont]) ++ [Newline] ++ chunks f (skipn 16 data)
      else map Num data ++ [Newline]
    end
  end.
Definition spec_mca (data : list Qc) : list tok := Start :: chunks (List.length data) data.
(* a header line: the numbers of #@CHANN, of #@CALIB, or another line *)
Inductive header : Type := Chann (l : list Z) | Calib (l : list Qc) | Other.
(* 27-50 save: header and text *)
Definition save (mca : list Qc) (zero gain : Qc) (ch0 ch1 : option Z) : list header * list tok :=
  let ch0 := match ch0 with Some c => c | None => 0%Z end in
  let ch1 := match ch1 with Some c => c | None => (ch0 + Z.of_nat (List.length mca) - 1)%Z end in
  ([Other; Other; Other; Other; Other; Chann [(ch1 - ch0 + 1)%Z; ch0; ch1; 1%Z]; Calib [zero; gain; 0%Qc]], spec_mca mca ++ [Newline]).
(* coeff: np.arange(2), or np.array(map(...)), which is an array without dimensions around an iterator in Python 3 *)
Inductive coeffs : Type := Array (l : list Qc) | Scalar (l : list Qc).
(* 60-71 the loop over header lines *)
Fixpoint read_header (h : list header) (coeff : coeffs) (ch : Z * Z) : result (coeffs * (Z * Z)) :=
  match h with
  | [] => Ok (coeff, ch)
  | Calib l :: h' => read_header h' (Scalar l) ch
  | Chann l :: h' => match l with [_; c0; c1; _] => read_header h' coeff (c0, c1) | _ => Err ValueError end
  | Other :: h' => read_header h' coeff ch
  end.
(* np.arange(a, b) *)
Definition arange (a b : Z) : list Z := map (fun i => (a + Z.of_nat i)%Z) (seq 0 (Z.to_nat (b - a))).
(* sum(c * channels ** i for i, c in enumerate(coeff)) for one channel *)
Definition energy_of (coeff : list Qc) (c : Z) : Qc := fold_left Qcplus (map (fun p => snd p * Qcpower (Qc_of_Z c) (fst p))%Qc (combine (seq 0 (List.length coeff)) coeff)) 0%Qc.
(* 53-78 read, of the numbers [mca] returned by getdata2 *)
Definition read (mca : list Qc) (h : list header) : result (list Qc * list Z * list Qc * list Qc) :=
  let! (coeff, ch) := read_header h (Array [0%Qc; 1%Qc]) (0%Z, 0%Z) in
  let mca := match mca with [] => [] | _ => mca ++ [0%Qc] end in
  let ch := if (fst ch =? snd ch)%Z then (0%Z, (Z.of_nat (List.length mca) - 1)%Z) else ch in
  let channels := arange (fst ch) (snd ch + 1) in
  match coeff with
  | Scalar _ => Err TypeError   (* enumerate of an array without dimensions *)
  | Array l => Ok (mca, channels, map (energy_of l) channels, l)
  end.
