From Verif Require Export FullfieldModel.
Local Open Scope list_scope.
Local Open Scope nat_scope.
(* sum of f 0 .. f (n - 1), sum over a list *)
Definition Sum (n : nat) (f : nat -> Qc) : Qc := fold_right Qcplus 0%Qc (map f (seq 0 n)).
Definition SumOf {A} (f : A -> Qc) (l : list A) : Qc := fold_right Qcplus 0%Qc (map f l).
(* the slice takes n' of n elements, from i0 on *)
Definition takes (n : nat) (s : slice_t) (i0 n' : nat) : Prop := py_slice (seq 0 n) (fst s) (snd s) = seq i0 n' /\ i0 + n' <= n.
(* the region of interest: all when there is none *)
Definition region (r : option (slice_t * slice_t)) (img : image) (i0 ni j0 nj : nat) : Prop :=
  match r with
  | None => i0 = 0 /\ ni = rows img /\ j0 = 0 /\ nj = cols img
  | Some (s, t) => takes (rows img) s i0 ni /\ takes (cols img) t j0 nj
  end.

Section Library.
Variable number : string -> Qc.
(* files with their processed images *)
Definition prepared (p : params) (l : list (file * image)) : Prop := Forall (fun x => procraw p (f_data (fst x)) = Ok (snd x)) l.
Definition shaped (r c : nat) (l : list (file * image)) : Prop := Forall (fun x => rows (snd x) = r /\ cols (snd x) = c) l.
Definition same_time (p : params) (t : string) (l : list (file * image)) : list (file * image) :=
  filter (fun x => String.eqb (match f_time (fst x) with Some u => u | None => p_time p end) t) l.
Definition frames (x : file * image) : Qc := match f_frames (fst x) with Some n => n | None => 1%Qc end.
Definition time_of (p : params) (x : file * image) : string := match f_time (fst x) with Some u => u | None => p_time p end.
(* dark per frame: the mean over all dark frames with the same frame time, by default linear in the frame time *)
Definition dark_rate (p : params) (d : list (file * image)) (t : string) (i j : nat) : Qc :=
  match same_time p t d with
  | [] => (p_zero p + p_gain p * number t)%Qc
  | l => (SumOf (fun x => px (snd x) i j) l / SumOf frames l)%Qc
  end.
Definition duration (p : params) (l : list (file * image)) : Qc := SumOf (fun x => number (time_of p x) * frames x)%Qc l.
(* there are dark frames when there are dark images *)
Definition has_frames (p : params) (d : list (file * image)) (t : string) : Prop := same_time p t d = [] \/ SumOf frames (same_time p t d) <> 0%Qc.
(* the files give an image: processed to a common shape, exposed and with dark frames *)
Definition measurable (p : params) (r c : nat) (d l : list (file * image)) : Prop :=
  prepared p l /\ shaped r c l /\ Forall (fun x => has_frames p d (time_of p x)) l /\ l <> [] /\ duration p l <> 0%Qc.
(* dark subtracted sum over the total exposure time *)
Definition rate (p : params) (d l : list (file * image)) (i j : nat) : Qc :=
  (SumOf (fun x => px (snd x) i j - frames x * dark_rate p d (time_of p x) i j) l / duration p l)%Qc.
(* flat image: one, or the mean of before and after *)
Definition flat_of (p : params) (dk b : list (file * image)) (b2 : option (list (file * image))) (i j : nat) : Qc :=
  match b2 with None => rate p dk b i j | Some b2 => ((rate p dk b i j + rate p dk b2 i j) / Qc_of_Z 2)%Qc end.
End Library.
(* a bound of a slice refers to the n elements *)
Definition within (n : Z) (x : option Z) : Prop := match x with None => True | Some v => (- n <= v <= n)%Z end.

(* the key of a file: the given value or else the label in the header *)
Definition key_of (x : file * option string) : option string := match snd x with Some k => Some k | None => f_stack (fst x) end.
Definition in_group (k : string) (roi : list Z) (x : file * option string) : bool :=
  match key_of x, getroi (fst x) with Some k', Ok r => String.eqb k' k && roi_eqb r roi | _, _ => false end.
Definition labelled (l : list (file * option string)) := filter (fun x => match key_of x with Some _ => true | None => false end) l.
Definition group (k : string) (roi : list Z) (l : list (file * option string)) : list file := map fst (filter (in_group k roi) l).
Definition with_values (given : list string) (fs : list file) : list (file * option string) :=
  combine fs (if List.length given =? List.length fs then map Some given else map (fun _ => None) fs).
Definition nonempty (l : list file) : option (list file) := match l with [] => None | _ => Some l end.
