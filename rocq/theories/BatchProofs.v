From Verif Require Import BatchSpec BaseProofs.
From Coq Require Import Lia.
Local Open Scope list_scope.
Local Open Scope nat_scope.

Lemma call_spec {J} (raises : J -> option exn) l c e : call raises l = (c, e) -> called_in_order raises l c e.
Proof.
  revert c e. induction l as [|j l IH]; intros c e H; cbn in H.
  - injection H as <- <-. left. repeat split. intros ? [].
  - destruct (raises j) as [x|] eqn:R.
    + injection H as <- <-. right. exists [], j, l, x. repeat split; auto. intros ? [].
    + destruct (call raises l) as [c' e'] eqn:C. injection H as <- <-. destruct (IH _ _ eq_refl) as [(-> & -> & N)|(a & k & b & x & -> & -> & -> & Rk & N)].
      * left. repeat split. intros i [<-|Hi]; auto.
      * right. exists (j :: a), k, b, x. repeat split; auto. intros i [<-|Hi]; auto.
Qed.
Lemma plain_context {J} (raises : J -> option exn) o jobs : plain o -> exists c e,
  context raises o jobs = mkOutcome None c e /\ called_in_order raises (match o_jobs o with [] => jobs | _ => flat_map (pick jobs) (o_jobs o) end) c e.
Proof.
  intros (H1 & H2 & H3 & H4). unfold context. rewrite H1, H2.
  assert ((0 <? o_a o)%Z = false) as -> by (apply Z.ltb_ge; exact H3). assert ((0 <? o_b o)%Z = false) as -> by (apply Z.ltb_ge; exact H4).
  rewrite !orb_false_r. destruct (o_jobs o) as [|i l] eqn:E.
  - destruct (call raises jobs) as [c e] eqn:C. exists c, e. split; [reflexivity|]. now apply call_spec.
  - cbn [orb]. destruct (call raises (flat_map (pick jobs) (i :: l))) as [c e] eqn:C. exists c, e. split; [reflexivity|]. now apply call_spec.
Qed.
Lemma all_jobs {J} (raises : J -> option exn) o jobs : plain o -> o_jobs o = [] -> exists c e, context raises o jobs = mkOutcome None c e /\ called_in_order raises jobs c e.
Proof. intros H E. destruct (plain_context raises o jobs H) as (c & e & C & R). rewrite E in R. eauto. Qed.
Lemma pick_valid {J} (jobs : list J) k j : nth_error jobs k = Some j -> pick jobs (Z.of_nat (S k)) = [j].
Proof.
  intros H. assert (k < List.length jobs) by (apply nth_error_Some; congruence). unfold pick.
  rewrite py_pos_nonneg by lia. replace (Z.to_nat (Z.of_nat (S k) - 1)) with k by lia. now rewrite H.
Qed.
Lemma pick_large {J} (jobs : list J) i : (Z.of_nat (List.length jobs) < i)%Z -> pick jobs i = [].
Proof. intros H. unfold pick. replace (py_pos (List.length jobs) (i - 1)) with (@None nat); [reflexivity|]. symmetry. apply py_pos_None. lia. Qed.
Lemma selected {J} (raises : J -> option exn) o jobs l : plain o -> o_jobs o <> [] ->
  Forall2 (fun i r => match r with Some j => exists k, i = Z.of_nat (S k) /\ nth_error jobs k = Some j | None => (Z.of_nat (List.length jobs) < i)%Z end) (o_jobs o) l ->
  exists c e, context raises o jobs = mkOutcome None c e /\ called_in_order raises (flat_map (fun r => match r with Some j => [j] | None => [] end) l) c e.
Proof.
  intros H N F. destruct (plain_context raises o jobs H) as (c & e & C & R). exists c, e. split; [exact C|].
  assert (E : flat_map (pick jobs) (o_jobs o) = flat_map (fun r => match r with Some j => [j] | None => [] end) l).
  { clear - F. induction F as [|i r is rs Hr _ IH]; [reflexivity|]. cbn. rewrite IH. f_equal. destruct r as [j|]; [destruct Hr as (k & -> & Hk); now apply pick_valid|now apply pick_large]. }
  destruct (o_jobs o); [contradiction|]. now rewrite <- E.
Qed.
Lemma negative {J} (jobs : list J) k j : nth_error jobs k = Some j -> pick jobs (Z.of_nat k + 1 - Z.of_nat (List.length jobs)) = [j].
Proof.
  intros H. assert (k < List.length jobs) by (apply nth_error_Some; congruence). unfold pick.
  rewrite py_pos_neg by lia. replace (Z.to_nat (Z.of_nat k + 1 - Z.of_nat (List.length jobs) - 1 + Z.of_nat (List.length jobs))) with k by lia. now rewrite H.
Qed.
Lemma last_job {J} (raises : J -> option exn) o jobs j k i : plain o -> nth_error jobs k = Some j -> i = (Z.of_nat k + 1 - Z.of_nat (List.length jobs))%Z -> o_jobs o = [i] ->
  (i <= 0)%Z /\ context raises o jobs = mkOutcome None [j] (raises j).
Proof.
  intros (H1 & H2 & H3 & H4) Hk Hi Ho. assert (k < List.length jobs) by (apply nth_error_Some; congruence). split; [lia|].
  unfold context. rewrite H1, H2, Ho.
  assert ((0 <? o_a o)%Z = false) as -> by (apply Z.ltb_ge; exact H3). assert ((0 <? o_b o)%Z = false) as -> by (apply Z.ltb_ge; exact H4).
  cbn [orb flat_map app]. rewrite Hi, (negative jobs k j Hk). cbn [app call]. destruct (raises j); reflexivity.
Qed.
Lemma range {J} (raises : J -> option exn) o jobs : o_number o = false -> o_list o = false -> (0 < o_a o)%Z \/ (0 < o_b o)%Z -> context raises o jobs = mkOutcome None [] (Some TypeError).
Proof.
  intros H1 H2 H. unfold context. rewrite H1, H2.
  assert (((0 <? o_a o)%Z || (0 <? o_b o)%Z)%bool = true) as E by (apply orb_true_iff; destruct H; [left|right]; apply Z.ltb_lt; assumption).
  rewrite <- orb_assoc, E, orb_true_r. reflexivity.
Qed.
Lemma printing {J} (raises : J -> option exn) o jobs : (o_number o = true -> context raises o jobs = mkOutcome (Some (PNumber (List.length jobs))) [] None) /\
  (o_number o = false -> o_list o = true -> context raises o jobs = mkOutcome (Some (PList jobs)) [] None).
Proof. unfold context. split; [intros ->; reflexivity|intros -> ->; reflexivity]. Qed.
Lemma sequential {T} (run : list T -> T -> result bool) before tasks ran r : run_sequential run before tasks = (ran, r) ->
  (ran = before ++ tasks /\ r = Ok true /\ forall a t b, tasks = a ++ t :: b -> run (before ++ a) t = Ok true) \/
  (exists a t b, tasks = a ++ t :: b /\ ran = before ++ a ++ [t] /\ r = run (before ++ a) t /\ r <> Ok true /\
     forall a' t' b', a = a' ++ t' :: b' -> run (before ++ a') t' = Ok true).
Proof.
  revert before. induction tasks as [|t tasks IH]; intros before H; cbn in H.
  - injection H as <- <-. left. rewrite app_nil_r. repeat split. intros [|? ?] ? ? E; discriminate.
  - destruct (run before t) as [[|]|e] eqn:R.
    + destruct (IH _ H) as [(-> & -> & N)|(a & u & b & -> & -> & Er & Hr & N)].
      * left. rewrite <- app_assoc. repeat split. intros [|x a] u b E; injection E as <- E; [now rewrite app_nil_r|].
        specialize (N a u b E). now rewrite <- app_assoc in N.
      * right. exists (t :: a), u, b. rewrite <- app_assoc in Er. repeat split; auto; [now rewrite <- app_assoc|].
        intros [|x a'] t' b' E; injection E as <- E; [now rewrite app_nil_r|]. specialize (N a' t' b' E). now rewrite <- app_assoc in N.
    + injection H as <- <-. right. exists [], t, tasks. rewrite app_nil_r. repeat split; auto; [discriminate|]. intros [|? ?] ? ? E; discriminate.
    + injection H as <- <-. right. exists [], t, tasks. rewrite app_nil_r. repeat split; auto; [discriminate|]. intros [|? ?] ? ? E; discriminate.
Qed.
Lemma sequential_0 {T} (run : list T -> T -> result bool) tasks ran r : run_sequential run [] tasks = (ran, r) ->
  (ran = tasks /\ r = Ok true /\ forall a t b, tasks = a ++ t :: b -> run a t = Ok true) \/
  (exists a t b, tasks = a ++ t :: b /\ ran = a ++ [t] /\ r = run a t /\ r <> Ok true /\
     forall a' t' b', a = a' ++ t' :: b' -> run a' t' = Ok true).
Proof. exact (sequential run [] tasks ran r). Qed.
