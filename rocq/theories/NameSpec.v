(* Vocabulary of the naming properties, independent of the model's functions. *)
From Verif Require Export NameModel.

Definition digits (s : chars) : Prop := Forall (fun c => digit c = true) s.
Definition no_digits (s : chars) : Prop := Forall (fun c => digit c = false) s.
Definition no_braces (s : chars) : Prop := Forall (fun c => c <> lbrace /\ c <> rbrace) s.

(* the value of a text of digits, place by place *)
Fixpoint value (s : chars) : Z :=
  match s with
  | [] => 0
  | c :: s' => (Z.of_nat (nat_of_ascii c) - 48) * 10 ^ Z.of_nat (length s') + value s'
  end.
(* no superfluous zero in front *)
Definition tight (s : chars) : Prop := forall c d s', s = c :: d :: s' -> c <> ch 48.

(* name is pre, a maximal run of digits, post, and post has no further digits *)
Definition last_number (name pre ds post : chars) : Prop :=
  name = pre ++ ds ++ post /\ ds <> [] /\ digits ds /\ no_digits post /\
  (forall p c, pre = p ++ [c] -> digit c = false).

(* the same name with another counter *)
Definition same_name (name s : chars) : Prop :=
  (no_digits name /\ s = name) \/
  (no_digits name /\ exists ds, ds <> [] /\ digits ds /\ s = name ++ [ch 46] ++ ds) \/
  (exists pre ds post ds', last_number name pre ds post /\ ds' <> [] /\ digits ds' /\
                           s = pre ++ ds' ++ post).

(* the k-th name of the sequence that starts with (the prepared) name *)
Definition nth_name (name : chars) (k : Z) (s : chars) : Prop :=
  (no_digits name /\ exists ds, s = name ++ [ch 46] ++ ds /\ digits ds /\ tight ds /\ ds <> [] /\
                                value ds = 1 + k) \/
  (exists pre ds post ds', last_number name pre ds post /\ s = pre ++ ds' ++ post /\
                           digits ds' /\ value ds' = value ds + k /\
                           (length ds <= length ds')%nat /\
                           ((length ds < length ds')%nat -> tight ds')).

(* only finitely many names exist *)
Definition finite (ex : chars -> bool) (l : list chars) : Prop :=
  forall s, ex s = true -> In s l.

(* base(ds), possibly followed by a newline *)
Definition counted (name base ds : chars) : Prop :=
  (name = base ++ [ch 40] ++ ds ++ [ch 41] \/ name = base ++ [ch 40] ++ ds ++ [ch 41] ++ [newline]) /\
  base <> [] /\ ~ In newline base /\ ds <> [] /\ digits ds.
(* base(k) *)
Definition counter_name (base : chars) (k : Z) (s : chars) : Prop :=
  exists ds, s = base ++ [ch 40] ++ ds ++ [ch 41] /\ ds <> [] /\ digits ds /\ tight ds /\ value ds = k.
