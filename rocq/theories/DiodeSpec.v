From Verif Require Import DiodeModel ScalarSpec.
Local Open Scope Qc_scope.

(* the voltage for a current of one ampere *)
Definition resistance (d : diode) (r : Qc) : Prop :=
  gain d = VperA r \/ exists i v, gain d = Amps i /\ vmax d = Some v /\ i <> 0 /\ r * i = v.
(* a diode with resistance r, of which the oscillator has slope s and offset f0, and with dark current i0 *)
Definition works (d : diode) (r s f0 i0 : Qc) : Prop :=
  resistance d r /\ r <> 0 /\
  (exists o, oscillator d = Some o /\ Vosc o <> 0 /\ s * Vosc o = Fmax o /\ F0 o = Fin f0) /\ s <> 0 /\
  dark d = Fin i0 /\ charge d <> 0.
(* flux f, current i, voltage v and counts per second c belong together *)
Definition signals (d : diode) (r s f0 i0 f i v c : Qc) : Prop := i = charge d * f + i0 /\ v = r * i /\ c = s * v + f0.
(* what is known of a list of data, NaN is None *)
Fixpoint values (l : list (option Qc)) : list Qc := match l with [] => [] | Some q :: l' => q :: values l' | None :: l' => values l' end.
(* b to the power n *)
Definition power (b n : Z) (u : Qc) : Prop :=
  ((0 <= n)%Z /\ u = Qc_of_Z (b ^ n)) \/ ((n < 0)%Z /\ u * Qc_of_Z (b ^ (- n)) = 1).
(* the unit of a number: its own, or when it has none Hz or (with an exposure time) counts *)
Definition meant (t : option Qc) (u k : unit_of) : Prop :=
  (u <> Plain /\ k = u) \/ (u = Plain /\ t = None /\ k = Hz) \/ (u = Plain /\ (exists time, t = Some time) /\ k = Counts).
