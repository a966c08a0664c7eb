(* Vocabulary for the statements about utils/hashing.py. *)
From Verif Require Export HashModel.
From Coq Require Import DecimalString.

(* Same content: equal except for the enumeration order of sets and plain
   dictionaries, the kind of non-empty sequences, and the representation of
   strings (text or bytes) and of integral numbers. *)
Definition num_value (n : pynum) : option Z :=
  match n with
  | NBool b => Some (if b then 1 else 0)
  | NInt z | NFloatInt z => Some z
  | NText _ | NComplexInt _ => None
  end.

Inductive same_content : pyval -> pyval -> Prop :=
| sc_refl x : same_content x x
| sc_str b b' s : same_content (PStr b s) (PStr b' s)
| sc_num n n' z : num_value n = Some z -> num_value n' = Some z ->
    same_content (PNum n) (PNum n')
| sc_seq k k' l l' : l <> [] -> Forall2 same_content l l' ->
    same_content (PSeq k l) (PSeq k' l')
| sc_arr0 v v' : same_content v v' -> same_content (PArr0 v) (PArr0 v')
| sc_set f f' l m l' : l <> [] -> Forall2 same_content l m -> Permutation m l' ->
    same_content (PSet f l) (PSet f' l')
| sc_dict l m l' :
    Forall2 (fun a b => same_content (fst a) (fst b) /\ same_content (snd a) (snd b)) l m ->
    Permutation m l' -> same_content (PMap false l) (PMap false l')
| sc_odict l l' :
    Forall2 (fun a b => same_content (fst a) (fst b) /\ same_content (snd a) (snd b)) l l' ->
    same_content (PMap true l) (PMap true l')
| sc_qty v v' u : same_content v v' -> same_content (PQty v u) (PQty v' u).

Section Digest.
Context (md5 : string -> string).

(* The digest of a value without the recursion limit, and everything that is fed
   to the digest function on the way. *)
Fixpoint digest (x : pyval) : string :=
  md5 (join match x with
      | PNone => [cls "NoneType"]
      | PStr _ s => [cls "string"; s]
      | PNum n => [cls "number"; num_text n]
      | PSeq k [] => [cls (seqname k)]
      | PSeq k l => map digest l
      | PArr0 v => [digest v]
      | PSet f [] => [cls (setname f)]
      | PSet f l => sorted str_leb (map digest l)
      | PMap o [] => [cls (mapname o)]
      | PMap true l => map (fun kv => digest (fst kv)) l ++ map (fun kv => digest (snd kv)) l
      | PMap false l =>
          let s := sorted (fun p q => str_leb (fst p) (fst q))
                     (map (fun kv => (digest (fst kv), digest (snd kv))) l) in
          map fst s ++ map snd s
      | PQty mag units => [digest mag; md5 (join [cls "string"; units])]
      end).

(* No two keys of one plain dictionary have the same digest. *)
Fixpoint key_digests_differ (x : pyval) : Prop :=
  match x with
  | PNone | PStr _ _ | PNum _ => True
  | PSeq _ l => fold_right and True (map key_digests_differ l)
  | PArr0 v => key_digests_differ v
  | PSet _ l => fold_right and True (map key_digests_differ l)
  | PMap o l =>
      (o = false -> NoDup (map (fun kv => digest (fst kv)) l)) /\
      fold_right and True (map (fun kv => key_digests_differ (fst kv)) l) /\
      fold_right and True (map (fun kv => key_digests_differ (snd kv)) l)
  | PQty v _ => key_digests_differ v
  end.

(* The text fed to the digest function for a value without unordered parts,
   and for all values inside it. *)
Definition digest_input (x : pyval) : string :=
  join match x with
      | PNone => [cls "NoneType"]
      | PStr _ s => [cls "string"; s]
      | PNum n => [cls "number"; num_text n]
      | PSeq k [] => [cls (seqname k)]
      | PSeq k l => map digest l
      | PArr0 v => [digest v]
      | PSet f _ => [cls (setname f)]
      | PMap o [] => [cls (mapname o)]
      | PMap _ l => map (fun kv => digest (fst kv)) l ++ map (fun kv => digest (snd kv)) l
      | PQty mag units => [digest mag; md5 (join [cls "string"; units])]
      end.

Fixpoint digest_inputs (x : pyval) : list string :=
  digest_input x ::
  match x with
  | PSeq _ l => flat_map digest_inputs l
  | PArr0 v => digest_inputs v
  | PMap _ l => flat_map (fun kv => digest_inputs (fst kv)) l ++
                flat_map (fun kv => digest_inputs (snd kv)) l
  | PQty mag units => digest_inputs mag ++ [join [cls "string"; units]]
  | _ => []
  end.
End Digest.

Definition injective_on (f : string -> string) (l : list string) : Prop :=
  forall s t, In s l -> In t l -> f s = f t -> s = t.

(* 32 characters, none of them "<" (a hexadecimal digest). *)
Definition hexlike (f : string -> string) : Prop :=
  forall s, String.length (f s) = 32%nat /\ String.get 0 (f s) <> Some "<"%char.

(* A value without sets and plain dictionaries; texts of non-integral numbers do
   not look like an integer. *)
Fixpoint ordered (x : pyval) : Prop :=
  match x with
  | PNone | PStr _ _ => True
  | PNum n => match n with NText s => NilZero.int_of_string s = None | _ => True end
  | PSeq _ l => fold_right and True (map ordered l)
  | PArr0 v => ordered v
  | PSet _ _ => False
  | PMap o l => o = true /\
      fold_right and True (map (fun kv => ordered (fst kv)) l) /\
      fold_right and True (map (fun kv => ordered (snd kv)) l)
  | PQty v _ => ordered v
  end.

(* What the hash of an ordered value depends on: the leaves and the nesting, an
   ordered mapping being the sequence of its keys followed by its values, a
   quantity the sequence of its magnitude and unit. *)
Inductive flat : Type :=
| FNone | FEmpty (class : string) | FStr (s : string) | FInt (z : Z) | FNum (s : string)
| FNode (l : list flat).

Definition flat_num (n : pynum) : flat :=
  match num_value n with Some z => FInt z | None => FNum (num_text n) end.

Fixpoint flatval (x : pyval) : flat :=
  match x with
  | PNone => FNone
  | PStr _ s => FStr s
  | PNum n => flat_num n
  | PSeq k [] => FEmpty (seqname k)
  | PSeq _ l => FNode (map flatval l)
  | PArr0 v => FNode [flatval v]
  | PSet f _ => FEmpty (setname f)
  | PMap o [] => FEmpty (mapname o)
  | PMap _ l => FNode (map (fun kv => flatval (fst kv)) l ++ map (fun kv => flatval (snd kv)) l)
  | PQty v u => FNode [flatval v; FStr u]
  end.
