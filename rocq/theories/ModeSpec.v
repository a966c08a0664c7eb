(* Vocabulary of the properties of opening modes. *)
From Verif Require Export ModeModel.

(* the documentation of localfs.Path.__init__ *)
Definition may_create (m : fmode) : Prop := In m [MW; MWP; MX; MXP; MA; MAP].
Definition may_truncate (m : fmode) : Prop := In m [MW; MWP].
Definition needs_new (m : fmode) : Prop := In m [MX; MXP].
Definition at_end (m : fmode) : Prop := In m [MA; MAP].
Definition local_mode (m : fmode) : Prop := In m [MR; MRP; MW; MWP; MX; MXP; MA; MAP].

(* nothing but the content of the file is different *)
Definition only_changes (f f' : fsys) (t : name) : Prop :=
  f_parent f' = f_parent f /\ forall k, k <> t -> f_node f' k = f_node f k.
(* the content after writing d at the beginning *)
Definition over (c d : list ascii) : list ascii := d ++ skipn (length d) c.
