(* C39: a task never publishes a partial result and never redoes a finished one.
   The theorems hold for every moment at which the execution raises or is interrupted, and for
   everything others add to the entry in between (env), as long as the random temporary names
   have nothing to do with the output (good_random); what happens when they have is below. *)
From Coq Require Import String.
From Verif Require Import NameProofs ProcProofs TaskTopProofs TaskSpec.
Close Scope string_scope.

(* A task with a dependency that is not done is not executed. *)
Theorem C39_dependencies : forall md5 rt t randoms w o d,
  In d (t_deps t) -> d_done d (w_file w) = false ->
  run md5 rt t randoms w o = Some (w, o, NotExecuted).
Proof. exact not_ready. Qed.
Print Assumptions C39_dependencies.

(* A task with an output is not executed. *)
Theorem C39_no_redo_partial : forall md5 rt t f randoms,
  good_task md5 rt t -> good_file md5 t f -> ready t f -> (exists n p, is_output md5 t f n p) ->
  exists o, run md5 rt t randoms (start f []) (new_obj t) = Some (start f [], o, AlreadyDone).
Proof. exact already_done. Qed.
Print Assumptions C39_no_redo_partial.

(* In every state of the file all outputs are complete and everything that was there before is
   still there.  Afterwards: the output is there, if the execution does not fail; nothing new but
   what others have added, if it fails.  When execution goes on after a termination signal, an
   empty group with the temporary name is left. *)
Theorem C39_run_partial : forall md5 rt t f env randoms,
  good_setting md5 rt t f env randoms -> ready t f ->
  exists w' o' oc,
  run md5 rt t randoms (start f env) (new_obj t) = Some (w', o', oc) /\
  Forall (all_complete md5 t) (w_hist w') /\ extends f (w_file w') /\ wf (w_file w') /\
  ((oc = AlreadyDone /\ grown (t_entry t) f env (w_file w') /\ exists n p, is_output md5 t (w_file w') n p) \/
   (oc = match t_default t with Some x => Raised x | None => Finished end /\ t_fail t = NoFailure /\
    exists n p, is_output md5 t (w_file w') n p /\ complete t p /\
      forall e' n' x, member (w_file w') e' n' x ->
        member f e' n' x \/ (e' = t_entry t /\ exists b, In b env /\ In (n', x) b) \/
        (e' = t_entry t /\ n' = n /\ x = Proc p)) \/
   (oc = Finished /\ t_fail t <> NoFailure /\
    forall e' n' x, member (w_file w') e' n' x ->
        member f e' n' x \/ (e' = t_entry t /\ exists b, In b env /\ In (n', x) b) \/
        (e' = t_entry t /\ goes_on t /\ In n' randoms /\ unused f (t_entry t) n' /\ x = Other))).
Proof. exact run_top. Qed.
Print Assumptions C39_run_partial.

(* Alone: a failing execution leaves the file as it was; a successful one makes a new output. *)
Theorem C39_alone_partial : forall md5 rt t f randoms,
  good_setting md5 rt t f [] randoms -> ready t f ->
  exists w' o' oc, run md5 rt t randoms (start f []) (new_obj t) = Some (w', o', oc) /\ w_env w' = [] /\
  ((t_fail t <> NoFailure /\ ~ goes_on t) -> w_file w' = f) /\
  (t_fail t = NoFailure -> (forall n p, ~ is_output md5 t f n p) ->
     exists n p, unused f (t_entry t) n /\ is_output md5 t (w_file w') n p) /\
  (t_fail t = NoFailure -> ready t (w_file w') -> forall randoms',
     exists o'', run md5 rt t randoms' w' o' = Some (w', o'', AlreadyDone)).
Proof. exact run_alone. Qed.
Print Assumptions C39_alone_partial.

(* Running again changes nothing, neither with the same object nor with a new one. *)
Theorem C39_again_partial : forall md5 rt t f randoms w' o' oc randoms',
  good_setting md5 rt t f [] randoms -> ready t f -> t_fail t = NoFailure ->
  run md5 rt t randoms (start f []) (new_obj t) = Some (w', o', oc) -> ready t (w_file w') ->
  (exists o1, run md5 rt t randoms' w' o' = Some (w', o1, AlreadyDone)) /\
  (exists o2, run md5 rt t randoms' (start (w_file w') []) (new_obj t) = Some (start (w_file w') [], o2, AlreadyDone)).
Proof. exact again_new. Qed.
Print Assumptions C39_again_partial.

(* a task with one dependency, in a file with the dependency and a foreign "fit.1"; somebody
   adds "fit.2" meanwhile *)
Definition ex_task (fl : failure) : task :=
  mkTask (txt "entry") (txt "fit") PNone [mkDep "d1" (fun f => used (txt "entry") f (txt "raw"))] [1; 2] fl None.
Definition ex_file : file := [(txt "entry", mkGroup CEntry [(txt "fit.1", Other); (txt "raw", Other)])].
Definition ex_env : list (list (chars * node)) := [[]; [(txt "fit.2", Other)]].
Definition ident (s : string) : string := s.
Definition same (v : pyval) : pyval := v.

Lemma not_same a b : matches a b <> Some true -> ~ same_name a b.
Proof. intros H S. apply H, matches_spec. now left. Qed.
Example C39_setting_example : forall fl, good_setting ident same (ex_task fl) ex_file ex_env [txt "raw"; txt "a1B2c3"] /\
  ready (ex_task fl) ex_file /\ forall n p, ~ is_output ident (ex_task fl) ex_file n p.
Proof.
  intros fl.
  assert (M : forall e n x, member ex_file e n x -> e = txt "entry" /\ (n = txt "fit.1" \/ n = txt "raw") /\ x = Other).
  { intros e n x (g & [[= <- <-]|[]] & [[= <- <-]|[[= <- <-]|[]]]); auto. }
  assert (O : forall n p, ~ is_output ident (ex_task fl) ex_file n p).
  { intros n p (Q & _). apply M in Q as (_ & _ & Q). discriminate. }
  split; [|split; [intros d [<-|[]]; reflexivity|exact O]].
  assert (Nb : forall s, forallb (fun c => negb (ascii_eqb c lbrace) && negb (ascii_eqb c rbrace)) s = true -> no_braces s).
  { intros s H. apply Forall_forall. rewrite forallb_forall in H. intros c I. apply H in I. apply andb_prop in I as [A B].
    split; intros ->; discriminate. }
  assert (Nn : forall s, existsb (ascii_eqb newline) s = false -> ~ In newline s).
  { intros s H I. assert (X : existsb (ascii_eqb newline) s = true); [|congruence].
    apply existsb_exists. exists newline. split; [exact I|reflexivity]. }
  split; [|split; [|split; [|split]]].
  - split; [now apply Nb|]. split; [now apply Nn|]. split; [reflexivity|]. eexists. vm_compute. reflexivity.
  - split; [|split; [|split]].
    + split; [repeat constructor|]. intros e g [[= <- <-]|[]]. split; [repeat constructor|]. intros H. now destruct H.
    + eexists. split; [now left|reflexivity].
    + intros n x Q. apply M in Q as (_ & [E | E] & _); rewrite E; (split; [discriminate|now apply Nn]).
    + intros n p Q. now apply O in Q.
  - constructor; [constructor|]. constructor; [|constructor]. constructor; [|constructor]. split; [discriminate|].
    split; [now apply (Nn (txt "fit.2"))|]. intros p fam sum E. discriminate.
  - assert (R : forall r, r <> [] -> no_braces r -> ~ In newline r -> matches (txt "fit.1") r <> Some true -> r <> txt "fit.2" ->
              good_random ident (ex_task fl) ex_file ex_env r).
    { intros r H1 H2 H3 H4 H5. split; [now split|]. split; [exact H3|]. split; [|split; [|split]].
      - intros fam Hf. assert (fam = txt "fit.1") as -> by (vm_compute in Hf; injection Hf as <-; reflexivity). now apply not_same.
      - intros e n p sum _ _ Q. apply M in Q as (_ & _ & Q). discriminate.
      - intros b n p sum _ [<-|[<-|[]]] J; [destruct J|]. destruct J as [J|[]]. discriminate.
      - intros b x [<-|[<-|[]]] J; [destruct J|]. destruct J as [[= J _]|[]]. now rewrite <- J in H5. }
    constructor; [|constructor; [|constructor]]; (apply R; [discriminate|now apply Nb|now apply Nn|vm_compute; discriminate|discriminate]).
  - exists (txt "a1B2c3"). split; [right; now left|]. intros x Q. apply M in Q as (_ & [E | E] & _); discriminate E.
Qed.
(* the runs of that task *)
Example C39_run_example :
  let out t := match run ident same t [txt "raw"; txt "a1B2c3"] (start ex_file ex_env) (new_obj t) with
               | Some (w, _, oc) => Some (map (fun nx => (fst nx, match snd nx with Proc p => p_data p | Other => [] end))
                                             (kids (txt "entry") (w_file w)), oc)
               | None => None
               end in
  out (ex_task NoFailure) = Some ([(txt "fit.1", []); (txt "fit.2", []); (txt "fit.3", [1; 2]); (txt "raw", [])], Finished) /\
  out (ex_task (Raises 1)) = Some ([(txt "fit.1", []); (txt "fit.2", []); (txt "raw", [])], Finished) /\
  out (ex_task (Signal 1 true)) = Some ([(txt "a1B2c3", []); (txt "fit.1", []); (txt "fit.2", []); (txt "raw", [])], Finished).
Proof. vm_compute. split; [reflexivity|]. split; reflexivity. Qed.

(* A random name that is also a name of the output: the result is removed and the task ends as
   if it had succeeded.  (The name of the task ends with a number and has no dot.) *)
Theorem C39_name_clash_refuted :
  let f : file := [(txt "entry", mkGroup CEntry [])] in
  let t := mkTask (txt "entry") (txt "map001") PNone [] [1; 2] NoFailure None in
  match run ident same t [txt "map123"] (start f []) (new_obj t) with
  | Some (w, _, oc) => oc = Finished /\ w_file w = f
  | None => False
  end.
Proof. vm_compute. split; reflexivity. Qed.
Print Assumptions C39_name_clash_refuted.

(* A failing task removes a complete result of the same parameters when the pattern of its random
   name matches it, here the result of an equal task in another entry. *)
Theorem C39_removed_refuted :
  let p := match set_config ident same [] PNone with (p, _) => mkProc (p_stored p) (p_deps p) (p_conf p) [1; 2] end in
  let f : file := [(txt "entry1", mkGroup CEntry [(txt "map001", Proc p)]); (txt "entry2", mkGroup CEntry [])] in
  let t := mkTask (txt "entry2") (txt "fit") PNone [] [1; 2] (Raises 0) None in
  match run ident same t [txt "map123"] (start f []) (new_obj t) with
  | Some (w, _, oc) => oc = Finished /\ w_file w = [(txt "entry1", mkGroup CEntry []); (txt "entry2", mkGroup CEntry [])]
  | None => False
  end.
Proof. vm_compute. split; reflexivity. Qed.
Print Assumptions C39_removed_refuted.

(* A task that has seen its output does not make it again after it was removed. *)
Theorem C39_removed_output_refuted : forall md5 rt t randoms f tg, ready t f ->
  exists o, run md5 rt t randoms (start f []) (mkObj tg true) = Some (start f [], o, AlreadyDone).
Proof. exact stale. Qed.
Print Assumptions C39_removed_output_refuted.
