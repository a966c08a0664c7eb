From Verif Require Export SignalModel.

(* the original handlers are installed *)
Definition restored (w : world) : Prop := forall s, w_new w s = false.
(* signals arrive only while the protected block itself runs *)
Definition only_in_body (env : list (place -> option sig)) : Prop :=
  Forall (fun f => forall a, a <> InBody -> f a = None) env.
Definition no_signals (env : list (place -> option sig)) : Prop :=
  Forall (fun f => forall a, f a = None) env.
(* the signals are among those the object takes over, each once *)
Definition well_behaved (p : params) : Prop :=
  p_setup p = None /\ (forall k, p_teardown p k = None).
(* no signal while the handlers are being replaced or during the set-up *)
Definition quiet_entry (env : list (place -> option sig)) : Prop :=
  Forall (fun f => f InEnter = None /\ f InSetup = None) env.
