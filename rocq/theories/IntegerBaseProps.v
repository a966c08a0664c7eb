(* C11: conversion between integers and digit strings (utils/integerbase.py).
   Strings are lists of symbols; [fuel] bounds the number of loop iterations and
   any value of at least |x| will do. *)
From Verif Require Import Base IntegerBaseModel IntegerBaseSpec IntegerBaseProofs.

Theorem C11_writes_positional_notation :
  forall A (minus : A) digs fuel x,
  2 <= base digs -> 0 <= x -> x <= Z.of_nat fuel -> NoDup digs ->
  exists s, int2base minus digs fuel x = Some (Ok s) /\ denotes digs s x /\ canonical digs s.
Proof. exact @int2base_ok. Qed.
Print Assumptions C11_writes_positional_notation.

Theorem C11_reads_positional_notation :
  forall A (eqb : A -> A -> bool), decides_eq eqb -> forall digs s v,
  NoDup digs -> base2int eqb digs s = Ok v <-> denotes digs s v.
Proof. exact @base2int_denotes. Qed.
Print Assumptions C11_reads_positional_notation.

Theorem C11_unknown_symbol_raises :
  forall A (eqb : A -> A -> bool), decides_eq eqb -> forall digs s e,
  base2int eqb digs s = Err e <-> e = ValueError /\ exists c, In c s /\ ~ In c digs.
Proof. exact @base2int_err. Qed.
Print Assumptions C11_unknown_symbol_raises.

(* The round trip, for numbers that are not negative. *)
Theorem C11_roundtrip_partial :
  forall A (eqb : A -> A -> bool), decides_eq eqb -> forall minus digs fuel x,
  2 <= base digs -> 0 <= x -> x <= Z.of_nat fuel -> NoDup digs ->
  exists s, int2base minus digs fuel x = Some (Ok s) /\ base2int eqb digs s = Ok x.
Proof. exact @int2base_roundtrip. Qed.
Print Assumptions C11_roundtrip_partial.

Theorem C11_string_roundtrip :
  forall A (eqb : A -> A -> bool), decides_eq eqb -> forall minus digs s v fuel,
  2 <= base digs -> NoDup digs ->
  canonical digs s -> base2int eqb digs s = Ok v -> v <= Z.of_nat fuel ->
  int2base minus digs fuel v = Some (Ok s).
Proof. exact @base2int_roundtrip. Qed.
Print Assumptions C11_string_roundtrip.

Example C11_roundtrip_ex :
  let digs := [10; 11; 12] in
  NoDup digs /\ 2 <= base digs /\
  int2base 45 digs 100 19 = Some (Ok [12; 10; 11]) /\ base2int Z.eqb digs [12; 10; 11] = Ok 19 /\
  canonical digs [12; 10; 11].
Proof.
  repeat split; try reflexivity; try (cbn; lia); try discriminate.
  repeat constructor; cbn; lia.
Qed.

(* A negative number is written with a minus sign that cannot be read back. *)
Theorem C11_negative_roundtrip_refuted :
  forall A (eqb : A -> A -> bool), decides_eq eqb -> forall minus digs fuel x,
  2 <= base digs -> x < 0 -> - x <= Z.of_nat fuel -> NoDup digs ->
  exists s, int2base minus digs fuel (- x) = Some (Ok s) /\
    int2base minus digs fuel x = Some (Ok (minus :: s)) /\
    (~ In minus digs -> base2int eqb digs (minus :: s) = Err ValueError).
Proof. exact @int2base_negative. Qed.
Print Assumptions C11_negative_roundtrip_refuted.

Example C11_negative_ex :
  int2base 45 [10; 11] 100 (-2) = Some (Ok [45; 11; 10]) /\
  base2int Z.eqb [10; 11] [45; 11; 10] = Err ValueError.
Proof. split; reflexivity. Qed.

(* With one symbol the loop does not end; with none it raises. *)
Theorem C11_single_symbol_diverges :
  forall A (minus : A) digs fuel x,
  base digs = 1 -> x <> 0 -> int2base minus digs fuel x = None.
Proof. exact @int2base_base1. Qed.
Print Assumptions C11_single_symbol_diverges.

Theorem C11_no_symbols_raises :
  forall A (minus : A) digs fuel x, digs = [] ->
  int2base minus digs (S fuel) x = Some (Err (if x =? 0 then IndexError else ZeroDivisionError)).
Proof. exact @int2base_base0. Qed.
Print Assumptions C11_no_symbols_raises.
