(* Model of src/spectrocrunch/utils/units.py: quantities made of numbers, quantities and arrays of them.
   A unit is its dimension and its size in base units; two units are the same when both agree. Arrays have one dimension and
   numbers are exact; numpy arrays of dimension 0 and uncertainties are not modelled. pint's DimensionalityError is a TypeError. *)
From Verif Require Export Base QcTac.
Local Open Scope Qc_scope.

Record unit_t : Type := Unit { u_dim : list Z; u_size : Qc }.
Definition dimensionless : unit_t := Unit [] 1.
Fixpoint dim_eqb (a b : list Z) : bool :=
  match a, b with
  | [], [] => true
  | x :: a', y :: b' => (x =? y)%Z && dim_eqb a' b'
  | _, _ => false
  end.
Definition unit_eqb (a b : unit_t) : bool := dim_eqb (u_dim a) (u_dim b) && Qc_eqb (u_size a) (u_size b).

(* a number or a quantity; an array or list of those; a quantity with an array as magnitude *)
Inductive scalar : Type := Num (x : Qc) | Quant (u : unit_t) (x : Qc).
Inductive val : Type := One (s : scalar) | Many (l : list scalar) | QArray (u : unit_t) (l : list Qc).

(* pint: x v .to(u) *)
Definition convert (v u : unit_t) (x : Qc) : result Qc :=
  if dim_eqb (u_dim v) (u_dim u) then Ok (x * u_size v / u_size u) else Err TypeError.
Definition convert_all (v u : unit_t) (l : list Qc) : result (list Qc) :=
  if dim_eqb (u_dim v) (u_dim u) then Ok (map (fun x => x * u_size v / u_size u) l) else Err TypeError.
Definition to (u : unit_t) (s : val) : result val :=
  match s with
  | One (Quant v x) => let! y := convert v u x in Ok (One (Quant u y))
  | QArray v l => let! m := convert_all v u l in Ok (QArray u m)
  | _ => Err AttributeError
  end.

(* utils/units.py:31-57 magnitude *)
Definition magnitude1 (u : unit_t) (s : scalar) : result Qc :=
  match s with
  | Quant v x => convert v u x
  | Num x => if unit_eqb u dimensionless then Ok x else Err TypeError
  end.
Inductive mag : Type := M1 (x : Qc) | MArray (l : list Qc).
Definition magnitude (u : option unit_t) (x : val) : result mag :=
  let u := match u with Some u => u | None => dimensionless end in
  match x with
  | One s => let! y := magnitude1 u s in Ok (M1 y)
  | QArray v l => let! m := convert_all v u l in Ok (MArray m)
  | Many l => let! m := mapM (magnitude1 u) l in Ok (MArray m)
  end.
(* 73-87 units *)
Definition unit1 (s : scalar) : option unit_t := match s with Num _ => None | Quant u _ => Some u end.
Definition units (x : val) : list (option unit_t) :=
  match x with One s => [unit1 s] | Many l => map unit1 l | QArray u _ => [Some u] end.

(* 90-108 asqarray. next() of no units is a StopIteration; instance.asarray looks at the first element of a list (utils/instance.py:300) *)
Definition asarray (l : list Qc) : result (list Qc) := match l with [] => Err IndexError | _ => Ok l end.
Definition asqarray (forcequantity : bool) (x : val) : result val :=
  match units x with
  | [] => Err StopIteration
  | u :: _ =>
      let du := match u with Some u => u | None => dimensionless end in
      let! l := match x with
                | Many l => let! m := mapM (magnitude1 du) l in asarray m
                | QArray v l => let! m := mapM (fun y => magnitude1 du (Quant v y)) l in asarray m
                | One s => let! y := magnitude1 du s in Ok [y]
                end in
      match u, forcequantity with
      | None, false => Ok (Many (map Num l))
      | _, _ => Ok (QArray du l)
      end
  end.
(* 12-28 Quantity *)
Definition quantity (u : option unit_t) (forcequantity : bool) (x : val) : result val :=
  let! x := match x with One _ => Ok x | _ => asqarray false x end in
  let du := match u with Some u => u | None => dimensionless end in
  if forcequantity then
    match x with
    | One (Num y) => Ok (One (Quant du y))
    | Many l => Ok (QArray du (map (fun s => match s with Num y => y | Quant _ y => y end) l))   (* numbers only *)
    | _ => Ok x
    end
  else Ok x.
(* 60-70 umagnitude *)
Definition umagnitude (u : unit_t) (x : val) : result mag :=
  let! q := quantity (Some u) true x in
  let! q := to u q in
  match q with One (Quant _ y) => Ok (M1 y) | QArray _ l => Ok (MArray l) | _ => Err AttributeError end.
(* 134-154 quantity_like: the set of the units of y should have one element *)
Definition ounit_eqb (a b : option unit_t) : bool :=
  match a, b with None, None => true | Some a, Some b => unit_eqb a b | _, _ => false end.
Definition quantity_like (forcequantity : bool) (x y : val) : result val :=
  match units y with
  | [] => Err ValueError
  | u :: l =>
      if forallb (ounit_eqb u) l then
        match u, forcequantity with
        | None, false => let! m := magnitude None x in Ok (match m with M1 q => One (Num q) | MArray l => Many (map Num l) end)
        | _, _ => let du := match u with Some u => u | None => dimensionless end in let! q := quantity (Some du) true x in to du q
        end
      else Err ValueError
  end.
(* 157-178 unitsto *)
Fixpoint to_first (x : val) (l : list unit_t) : result val :=
  match l with
  | [] => Err RuntimeError
  | u :: l' => match to u x with Err TypeError => to_first x l' | r => r end
  end.
Definition unitsto (x : val) (l : list unit_t) : result val := let! x := quantity None true x in to_first x l.
(* 181-194 binary_operator: the arguments of the operator *)
Definition binary_arguments (a b : val) : result (val * val) :=
  let! a' := quantity None false a in
  let! b' := quantity_like false b a in
  Ok (a', b').
(* 111-131 asqarrayf: a scalar is restored from the first element *)
Definition restore (x y : val) : result val :=
  match x with
  | One _ => match y with
             | QArray u (q :: _) => Ok (One (Quant u q))
             | Many (s :: _) => Ok (One s)
             | _ => Err IndexError
             end
  | _ => Ok y
  end.
