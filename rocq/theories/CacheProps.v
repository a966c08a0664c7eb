(* C01, C02: bounded dictionary and caching contexts. *)
From Verif Require Import Base BaseProofs CacheModel CacheSpec CacheProofs.

(* C01 *)
Theorem limited_dict_keeps_newest_insertions :
  forall (K V : Type) (eqb : K -> K -> bool), decides_eq eqb ->
  forall (n : nat) (ops : list (K * V)),
  exists d, setitems eqb (Some (Z.of_nat n)) [] ops = Ok d /\
    (length d <= n)%nat /\ NoDup (keys d) /\
    keys d = lastn n (history eqb n (map fst ops)) /\
    (forall k v, lookup eqb k d = Some v -> last_assigned eqb k ops = Some v).
Proof. exact @limited_dict_spec. Qed.
Print Assumptions limited_dict_keeps_newest_insertions.
Example limited_dict_ex :
  setitems Z.eqb (Some 2) [] [(1, 10); (2, 20); (1, 11); (3, 30); (1, 12)] = Ok [(3, 30); (1, 12)]
  /\ history Z.eqb 2 [1; 2; 1; 3; 1] = [1; 2; 3; 1].
Proof. split; reflexivity. Qed.

Theorem unlimited_dict_drops_nothing :
  forall (K V : Type) (eqb : K -> K -> bool), decides_eq eqb ->
  forall (ops : list (K * V)),
  exists d, setitems eqb None [] ops = Ok d /\ NoDup (keys d) /\
    (forall k, lookup eqb k d = last_assigned eqb k ops).
Proof. exact @unlimited_dict_spec. Qed.
Print Assumptions unlimited_dict_drops_nothing.

Theorem limited_dict_constructor_same_as_assignments :
  forall (K V : Type) (eqb : K -> K -> bool), decides_eq eqb ->
  forall (limit : option Z) (items d : list (K * V)),
    limited_init eqb limit items = Ok d -> setitems eqb limit [] items = Ok d.
Proof. exact @limited_init_spec. Qed.
Print Assumptions limited_dict_constructor_same_as_assignments.
Example limited_init_ex :
  limited_init Z.eqb (Some 2) [(1, 10); (2, 20); (3, 30)] = Ok [(2, 20); (3, 30)].
Proof. reflexivity. Qed.

(* A negative limit cannot be met: every assignment raises. *)
Theorem limited_dict_negative_limit_raises :
  forall (K V : Type) (eqb : K -> K -> bool) (n : Z) (d : list (K * V)) op,
    n < 0 -> setitem eqb (Some n) d op = Err KeyError.
Proof. exact @limited_negative. Qed.
Print Assumptions limited_dict_negative_limit_raises.

(* C02 *)
Theorem cache_generated_once_and_dropped_partial :
  forall (K V : Type) (eqb : K -> K -> bool), decides_eq eqb ->
  forall (has_gen : K -> bool) (gen : nat -> K -> result V) (force : bool)
    (s : K) (body : prog) (st st' : cstate),
    mem eqb s (store st) = false ->
    exec eqb has_gen gen force (Ctx s body) st = (Ok tt, st') ->
    store st' = store st /\
    exists v evs, events st' = events st ++ Gen s v :: evs /\
      Forall (fun e => match e with Gen s' _ => s' <> s | Read s' v' => s' = s -> v' = v end) evs.
Proof. exact @ctx_ok. Qed.
Print Assumptions cache_generated_once_and_dropped_partial.
Example cache_ctx_ex :
  events (snd (ex_exec (Ctx 7 (Seq (Get 7) (Seq (Ctx 7 (Seq (Get 7) (Ctx 8 (Get 8)))) (Get 7)))) ex_init))
  = [Gen 7 700; Read 7 700; Read 7 700; Gen 8 801; Read 8 801; Read 7 700].
Proof. reflexivity. Qed.

Theorem nested_context_reuses_outer_value :
  forall (K V : Type) (eqb : K -> K -> bool), decides_eq eqb ->
  forall (has_gen : K -> bool) (gen : nat -> K -> result V) (force : bool)
    (s : K) (body : prog) (st st' : cstate) (v : V),
    lookup eqb s (store st) = Some v ->
    exec eqb has_gen gen force (Ctx s body) st = (Ok tt, st') ->
    store st' = store st /\
    exists evs, events st' = events st ++ evs /\
      Forall (fun e => match e with Gen s' _ => s' <> s | Read s' v' => s' = s -> v' = v end) evs.
Proof. exact @ctx_nested. Qed.
Print Assumptions nested_context_reuses_outer_value.

Theorem forced_read_outside_context_raises :
  forall (K V : Type) (eqb : K -> K -> bool)
    (has_gen : K -> bool) (gen : nat -> K -> result V) (force : bool) (s : K) (st : cstate),
    mem eqb s (store st) = false -> force = true ->
    getcache eqb has_gen gen force s st =
      (Err (if has_gen s then RuntimeError else AttributeError), st).
Proof. exact @getcache_outside. Qed.
Print Assumptions forced_read_outside_context_raises.

(* The exceptional half of the property fails. *)
Theorem cache_survives_exception_refuted :
  exists body st1 st2,
    ex_exec (Ctx 7 body) ex_init = (Err ValueError, st1) /\
    store st1 <> [] /\
    ex_exec (Ctx 7 (Get 7)) st1 = (Ok tt, st2) /\
    events st2 = [Gen 7 700; Read 7 700].
Proof. exact cachectx_exception. Qed.
Print Assumptions cache_survives_exception_refuted.
