(* C03, C04: content hashes. *)
From Verif Require Import BaseProofs HashModel HashSpec HashProofs.
Open Scope string_scope.

(* C03.  [same_content x y]: y is x with sets and plain dictionaries enumerated in
   another order, non-empty sequences of another kind, texts as bytes or str. *)
Theorem hash_ignores_enumeration_order_partial :
  forall (md5 : string -> string) (x y : pyval),
    same_content x y -> key_digests_differ md5 x -> calchash md5 0 x = calchash md5 0 y.
Proof. exact same_content_calchash. Qed.
Print Assumptions hash_ignores_enumeration_order_partial.
Example hash_order_ex :
  same_content (ex_dict false) (ex_dict true) /\ key_digests_differ toy_md5 (ex_dict false) /\
  ex_dict false <> ex_dict true.
Proof. split; [exact ex_dict_same|]. split; [exact ex_dict_keys|]. discriminate. Qed.

(* The only failure is exceeding the recursion limit. *)
Theorem hash_fails_only_on_deep_nesting :
  forall (md5 : string -> string) (x : pyval),
    (exists h, calchash md5 0 x = Ok h) <-> (height x <= 100)%nat.
Proof. exact calchash_ok_iff. Qed.
Print Assumptions hash_fails_only_on_deep_nesting.

(* {b"a": 1, "a": 2}: two distinct keys with the same hash; the stable sort keeps
   the enumeration order and the hash depends on it. *)
Theorem hash_order_of_bytes_and_text_keys_refuted :
  forall md5, hexlike md5 ->
  let h := md5 (join [cls "string"; "a"]) in
  let h1 := md5 (join [cls "number"; "1"]) in
  let h2 := md5 (join [cls "number"; "2"]) in
  h1 <> h2 ->
  (md5 (join [h; h; h1; h2]) = md5 (join [h; h; h2; h1]) -> join [h; h; h1; h2] = join [h; h; h2; h1]) ->
  same_content (str_key_dict false) (str_key_dict true) /\
  calchash md5 0 (str_key_dict false) <> calchash md5 0 (str_key_dict true).
Proof. exact str_key_dict_order. Qed.
Print Assumptions hash_order_of_bytes_and_text_keys_refuted.

(* An empty list and an empty tuple do not hash alike. *)
Theorem hash_of_empty_sequences_refuted :
  forall md5, md5 (cls "list") <> md5 (cls "tuple") ->
  calchash md5 0 (PSeq KList []) <> calchash md5 0 (PSeq KTuple []).
Proof. exact empty_seq_kinds. Qed.
Print Assumptions hash_of_empty_sequences_refuted.

(* The documented equality of the hashes of 1 and 1+0j does not hold. *)
Theorem hash_of_complex_integer_refuted :
  forall md5, md5 (append (cls "number") "1") <> md5 (append (cls "number") "(1+0j)") ->
  calchash md5 0 (PNum (NInt 1)) <> calchash md5 0 (PNum (NComplexInt 1)).
Proof. exact complex_number. Qed.
Print Assumptions hash_of_complex_integer_refuted.

(* C04.  Without sets and plain dictionaries the hash determines the leaves and the
   nesting (up to the confusion of containers described by [flatval]), when the
   digest does not collide on the texts that are actually digested. *)
Theorem hash_separates_ordered_values_partial :
  forall (md5 : string -> string), hexlike md5 ->
  forall (x y : pyval) (h : string),
    ordered x -> ordered y ->
    injective_on md5 (digest_inputs md5 x ++ digest_inputs md5 y) ->
    calchash md5 0 x = Ok h -> calchash md5 0 y = Ok h -> flatval x = flatval y.
Proof. exact calchash_ordered_injective. Qed.
Print Assumptions hash_separates_ordered_values_partial.
Example hash_separates_ex :
  hexlike toy_md5 /\ ordered ex_ordered1 /\ ordered ex_ordered2 /\
  injective_on toy_md5 (digest_inputs toy_md5 ex_ordered1 ++ digest_inputs toy_md5 ex_ordered2) /\
  is_ok (calchash toy_md5 0 ex_ordered1) = true /\
  calchash toy_md5 0 ex_ordered1 = calchash toy_md5 0 ex_ordered2.
Proof.
  split; [exact toy_hexlike|]. split; [cbn; auto|]. split; [cbn; auto|].
  split; [exact ex_ordered_inj|]. split; reflexivity.
Qed.

(* Two plain dictionaries with the same hash hold the same (hashed) items. *)
Theorem hash_separates_plain_dictionaries_partial :
  forall (md5 : string -> string), hexlike md5 ->
  forall (l l' : list (pyval * pyval)) (h : string),
    let fed l := join (let s := sorted le2 (map (fun kv => (digest md5 (fst kv), digest md5 (snd kv))) l) in
                       map fst s ++ map snd s) in
    injective_on md5 [fed l; fed l'] ->
    l <> [] -> l' <> [] ->
    calchash md5 0 (PMap false l) = Ok h -> calchash md5 0 (PMap false l') = Ok h ->
    Permutation (map (fun kv => (digest md5 (fst kv), digest md5 (snd kv))) l)
                (map (fun kv => (digest md5 (fst kv), digest md5 (snd kv))) l').
Proof. exact dict_injective. Qed.
Print Assumptions hash_separates_plain_dictionaries_partial.

(* Different containers collide, whatever the digest: {a: b} and [a, b] ... *)
Theorem hash_confuses_dict_and_list_refuted :
  forall md5 a b, calchash md5 0 (PSeq KList [a; b]) = calchash md5 0 (PMap false [(a, b)]).
Proof. exact dict_list_collision. Qed.
Print Assumptions hash_confuses_dict_and_list_refuted.

(* ... and {a, b} with [a, b] or [b, a]. *)
Theorem hash_confuses_set_and_list_refuted :
  forall md5 a b,
    calchash md5 0 (PSet false [a; b]) = calchash md5 0 (PSeq KList [a; b]) \/
    calchash md5 0 (PSet false [a; b]) = calchash md5 0 (PSeq KList [b; a]).
Proof. exact set_list_collision. Qed.
Print Assumptions hash_confuses_set_and_list_refuted.
