(* What the theorems about the scaling of scenes refer to. *)
From Verif Require Export ScenescaleModel.
(* the fraction for channel [c]: a sequence of one number is used for all channels *)
Definition fraction_of (p : fraction) (c : nat) : Qc :=
  match p with POne q => q | PMany [q] => q | PMany l => nth c l 0%Qc end.
