From Verif Require Export UnitsModel.
Local Open Scope Qc_scope.
(* what is meant: dimension and value in base units; a number has no dimension *)
Definition physical (s : scalar) : list Z * Qc := match s with Num x => ([], x) | Quant u x => (u_dim u, x * u_size u) end.
Definition meaning (x : val) : list (list Z * Qc) :=
  match x with
  | One s => [physical s]
  | Many l => map physical l
  | QArray u l => map (fun y => (u_dim u, y * u_size u)) l
  end.
(* in the unit u: the dimension of u; numbers only when u is that of numbers *)
Definition fits (u : unit_t) (s : scalar) : Prop := match s with Quant v _ => u_dim v = u_dim u | Num _ => u = dimensionless end.
Definition has_unit (u : unit_t) (x : val) : Prop := match x with One (Quant v _) => v = u | QArray v _ => v = u | _ => False end.
Definition sized (u : unit_t) : Prop := u_size u <> 0.
(* the unit of an element: that of numbers is dimensionless *)
Definition unit_of (s : scalar) : unit_t := match s with Num _ => dimensionless | Quant u _ => u end.
(* numbers in the unit u *)
Definition in_unit (u : unit_t) (l : list Qc) : list (list Z * Qc) := map (fun y => (u_dim u, y * u_size u)) l.
Definition is_number (s : scalar) : Prop := match s with Num _ => True | Quant _ _ => False end.
