(* Vocabulary for the statements about X-ray spectra. *)
From Coq Require Import String DecimalString.
From Verif Require Import Base QcTac XspectrumModel.
Local Open Scope Qc_scope.

(* the numbers of a value *)
Definition numbers (v : value) : list Qc := match v with Scalar q => [q] | Array l => l end.
Fixpoint sum (l : list Qc) : Qc := match l with [] => 0 | q :: l' => q + sum l' end.
(* sum of products, pair by pair *)
Fixpoint dot (l m : list Qc) : Qc := match l, m with a :: l', b :: m' => a * b + dot l' m' | _, _ => 0 end.
(* sum of two values of the same length, or of a number and an array *)
Definition plus (v w : value) : value :=
  match v, w with
  | Scalar a, Scalar b => Scalar (a + b)
  | Scalar a, Array m => Array (map (fun b => a + b) m)
  | Array l, Scalar b => Array (map (fun a => a + b) l)
  | Array l, Array m => Array (map (fun p => fst p + snd p) (combine l m))
  end.
Definition compatible (v w : value) : Prop :=
  match v, w with Array l, Array m => List.length l = List.length m | _, _ => True end.
(* the number of values of a scattering line or a Line is that of its energies *)
Definition matched (p : line * value) : Prop := k_kind (fst p) = Fluo \/ List.length (numbers (k_energy (fst p))) = List.length (numbers (snd p)).
Definition ascending_by {A} (key : A -> Qc) (l : list A) : Prop := StronglySorted (fun a b => key a <= key b) l.
(* arrays in memory: those of two lines are different; they exist *)
Definition separate (a b : store) : Prop :=
  (forall k k' r, In (k, Ref r) (st_lines a) -> In (k', Ref r) (st_lines a) -> k = k') /\
  (forall k k' r, In (k, Ref r) (st_lines b) -> In (k', Ref r) (st_lines b) -> k = k') /\
  (forall k k' r, In (k, Ref r) (st_lines a) -> In (k', Ref r) (st_lines b) -> False).
Definition allocated (h : heap) (a : store) : Prop := forall k r, In (k, Ref r) (st_lines a) -> (r < List.length h)%nat.
Definition distinct_lines {A} (l : list (line * A)) : Prop := NoDup (map (fun p => k_repr (fst p)) l).
(* the names under which the peaks of a line are listed: the numbered name of a scattering line or the line itself *)
Definition scatters (g : string) : Prop := g = "Compton"%string \/ g = "Rayleigh"%string.
Definition numeral (i : nat) : string := DecimalString.NilZero.string_of_uint (Nat.to_uint i).
Definition peak_names (k : line) : list string :=
  match k_kind k with
  | Rayleigh | Compton => map (fun i => (k_group k ++ numeral i)%string) (seq 0 (List.length (numbers (k_energy k))))
  | _ => [k_repr k]
  end.
(* scattering lines have their own group, with one value for every energy; other lines have other groups *)
Definition proper (p : line * value) : Prop :=
  match k_kind (fst p) with
  | Rayleigh => k_repr (fst p) = "Rayleigh"%string /\ k_group (fst p) = "Rayleigh"%string /\ matched p
  | Compton => k_repr (fst p) = "Compton"%string /\ k_group (fst p) = "Compton"%string /\ matched p
  | _ => ~ scatters (k_group (fst p))
  end.
(* what weights do to a line: values with as many numbers as weights are multiplied by the weights, which sum up to one *)
Definition weighted (s : spectrum) (w : value) (p p' : line * entry) : Prop :=
  fst p' = fst p /\
  (List.length (numbers (evaluated (sp_geom s) (snd p))) = List.length (numbers w) ->
     exists v, snd p' = Val v /\ List.length (numbers v) = List.length (numbers w) /\
       (forall i, nth i (numbers v) 0 * sum (numbers w) = nth i (numbers (evaluated (sp_geom s) (snd p))) 0 * nth i (numbers w) 0) /\
       sum (numbers v) * sum (numbers w) = dot (numbers (evaluated (sp_geom s) (snd p))) (numbers w)) /\
  (List.length (numbers (evaluated (sp_geom s) (snd p))) <> List.length (numbers w) -> snd p' = snd p).
(* the lines of a group, fluorescence lines with one value for all sources *)
Definition of_group (g : string) (l : list (line * value)) : list (line * value) :=
  map (fun p => (fst p, match k_kind (fst p) with Fluo => Scalar (sum (numbers (snd p))) | _ => snd p end)) (filter (fun p => String.eqb (k_group (fst p)) g) l).
(* lines of two spectra with the same representation can be summed: the first is not a function, arrays have the same length *)
Definition summable (h : heap) (a b : store) : Prop :=
  forall k k' c c', In (k, c) (st_lines a) -> In (k', c') (st_lines b) -> k_repr k = k_repr k' ->
    (forall f, c <> Fun f) /\ compatible (content h (st_geom a) c) (content h (st_geom b) c').
Definition pair_dec (a b : option Qc * Qc) : {a = b} + {a <> b}.
Proof. decide equality; [apply Qc_eq_dec|]. decide equality. apply Qc_eq_dec. Defined.
