(* Model of the class Spectrum of src/spectrocrunch/materials/xrayspectrum.py (650-1371) and of its lines (495-645): weights, units,
   sums of spectra, lines and groups of lines, channels.  Numbers are exact; values are numbers or one-dimensional arrays, one number
   per source energy.  Profiles of peaks, noise and plots are not modelled. *)
From Coq Require Import String Ascii DecimalString.
From Verif Require Import Base QcTac ScalarModel.
Local Open Scope string_scope.
Local Open Scope list_scope.
Local Open Scope Qc_scope.

(* ---- values ---- *)
Inductive value : Type := Scalar (q : Qc) | Array (l : list Qc).
(* instance.asarray, listtools.length, np.sum *)
Definition asarray (v : value) : list Qc := match v with Scalar q => [q] | Array l => l end.
Definition total (l : list Qc) : Qc := fold_right Qcplus 0 l.
Definition np_sum (v : value) : Qc := total (asarray v).
Definition scaled (m : Qc) (v : value) : value := match v with Scalar q => Scalar (q * m) | Array l => Array (map (fun q => q * m) l) end.
Fixpoint zip_with (f : Qc -> Qc -> Qc) (l m : list Qc) : list Qc :=
  match l, m with a :: l', b :: m' => f a b :: zip_with f l' m' | _, _ => [] end.
(* v * w for values of the same length *)
Definition times (v w : value) : value :=
  match v, w with
  | Scalar a, Scalar b => Scalar (a * b)
  | Scalar a, Array m => Array (map (fun b => a * b) m)
  | Array l, Scalar b => Array (map (fun a => a * b) l)
  | Array l, Array m => Array (zip_with Qcmult l m)
  end.

(* ---- lines ---- *)
Inductive kind : Type := Fluo | Plain | Rayleigh | Compton.
(* k_repr is the unique representation on which lines are compared and hashed; k_energy is the energy of a fluorescence line
   (495-545) or a Line (548-584) and the source energy of a scattering line (587-656) *)
Record line : Type := { k_kind : kind; k_repr : string; k_group : string; k_energy : value }.
Definition same (a b : line) : bool := String.eqb (k_repr a) (k_repr b).
Record geom : Type := { polar : option Qc; azimuth : option Qc }.
(* energy with geomkwargs: 634-647 for Compton, with the constant (1-cos(polar))/(m_e c^2) as a function of the angle *)
Definition nonzero (o : option Qc) : option Qc := match o with None => None | Some q => if Qc_eqb q 0 then None else Some q end.
Definition compton (m e : Qc) : Qc := e / (1 + e * m).
Definition energy (shift : Qc -> Qc) (g : geom) (k : line) : value :=
  match k_kind k, nonzero (polar g) with
  | Compton, Some p => match k_energy k with Scalar e => Scalar (compton (shift p) e) | Array l => Array (map (compton (shift p)) l) end
  | _, _ => k_energy k
  end.
Definition no_geom : geom := {| polar := None; azimuth := None |}.
(* cls(e): a line of the same class with one of the energies; the group of a Line is lost *)
Definition relined (str : Qc -> string) (k : line) (e : Qc) : line :=
  match k_kind k with
  | Plain => {| k_kind := Plain; k_repr := str e; k_group := "unknown"; k_energy := Scalar e |}
  | c => {| k_kind := c; k_repr := k_repr k; k_group := k_group k; k_energy := Scalar e |}
  end.

(* ---- spectra ---- *)
(* 666-671: an entry is a value or a function of the geometry *)
Inductive entry : Type := Val (v : value) | Call (f : geom -> value).
Inductive stype : Type := DiffCross | Cross | Rate | NoType.
Record spectrum : Type := {
  sp_lines : list (line * entry);
  sp_density : option Qc;
  sp_type : stype;
  sp_geom : geom;                (* geomkwargs, of the geometry if there is one *)
  sp_detector : option (Qc * Qc); (* gain and zero of the detector of the geometry *)
  sp_xlim : option (Qc * Qc)
}.
Definition with_lines (s : spectrum) (l : list (line * entry)) : spectrum :=
  {| sp_lines := l; sp_density := sp_density s; sp_type := sp_type s; sp_geom := sp_geom s; sp_detector := sp_detector s; sp_xlim := sp_xlim s |}.
(* 673-679 __getitem__ *)
Definition evaluated (g : geom) (e : entry) : value := match e with Val v => v | Call f => f g end.
Definition getitem (s : spectrum) (k : line) : result value :=
  match lookup same k (sp_lines s) with None => Err KeyError | Some e => Ok (evaluated (sp_geom s) e) end.
(* MutableMapping.items *)
Definition items (s : spectrum) : list (line * value) := map (fun p => (fst p, evaluated (sp_geom s) (snd p))) (sp_lines s).

(* 730-738 apply_weights; division by a sum of zero is not modelled (numpy: nan or inf) *)
Definition apply_weights (weights : option value) (s : spectrum) : spectrum :=
  match weights with
  | None => s
  | Some w =>
      let w' := scaled (/ np_sum w) w in
      with_lines s (map (fun p => let v := evaluated (sp_geom s) (snd p) in
        if (List.length (asarray v) =? List.length (asarray w))%nat then (fst p, Val (times v w')) else p) (sp_lines s))
  end.
(* 740-743 sum_sources *)
Definition sum_sources (s : spectrum) : spectrum :=
  with_lines s (map (fun p => match k_kind (fst p) with Fluo => (fst p, Val (Scalar (np_sum (evaluated (sp_geom s) (snd p))))) | _ => p end) (sp_lines s)).

(* 788-798 line_multiplier; four_pi is the number 4*np.pi.  Without density the product fails. *)
Definition line_multiplier (four_pi : Qc) (convert : bool) (s : spectrum) : result Qc :=
  if negb convert then Ok 1
  else match sp_type s, sp_density s with
       | Cross, Some d => Ok (d / four_pi)
       | DiffCross, Some d => Ok d
       | Cross, None => Err TypeError
       | DiffCross, None => Err TypeError
       | Rate, _ => Ok 1
       | NoType, _ => Err RuntimeError
       end.
(* 681-683 getitem_converted *)
Definition getitem_converted (four_pi : Qc) (convert : bool) (s : spectrum) (k : line) : result value :=
  let! m := line_multiplier four_pi convert s in let! v := getitem s k in Ok (scaled m v).
(* 824-833 items_sorted on the largest energy *)
Fixpoint largest (q : Qc) (l : list Qc) : Qc := match l with [] => q | x :: l' => largest (if Qc_ltb q x then x else q) l' end.
Definition np_max (v : value) : result Qc := match asarray v with [] => Err ValueError | q :: l => Ok (largest q l) end.
Fixpoint insert_by {A} (key : A -> Qc) (x : A) (l : list A) : list A :=
  match l with [] => [x] | y :: l' => if Qc_leb (key x) (key y) then x :: l else y :: insert_by key x l' end.
Fixpoint sort_by {A} (key : A -> Qc) (l : list A) : list A := match l with [] => [] | x :: l' => insert_by key x (sort_by key l') end.
Definition items_sorted (shift : Qc -> Qc) (sort : bool) (s : spectrum) : result (list (line * value)) :=
  if sort then
    let! keyed := mapM (fun p => let! e := np_max (energy shift (sp_geom s) (fst p)) in Ok (e, p)) (items s) in
    Ok (map snd (sort_by fst keyed))
  else Ok (items s).
(* 835-838 items_converted *)
Definition items_converted (shift : Qc -> Qc) (four_pi : Qc) (convert sort : bool) (s : spectrum) : result (list (line * value)) :=
  let! m := line_multiplier four_pi convert s in
  let! l := items_sorted shift sort s in
  Ok (map (fun p => (fst p, scaled m (snd p))) l).
(* 840-853 probabilities, 869-876 rates *)
Definition probabilities (shift : Qc -> Qc) (four_pi : Qc) (s : spectrum) : result (list (line * value)) :=
  match sp_type s with Cross | DiffCross => items_converted shift four_pi true false s | _ => Err RuntimeError end.
Definition rates (shift : Qc -> Qc) (four_pi : Qc) (s : spectrum) : result (list (line * value)) :=
  match sp_type s with Rate => items_converted shift four_pi true false s | _ => Err RuntimeError end.

(* 891-903 lines: fluorescence lines with all sources together, other lines for every source *)
Definition split_line (str : Qc -> string) (p : line * value) : list (line * Qc) :=
  match k_kind (fst p) with
  | Fluo => [(fst p, np_sum (snd p))]
  | _ => map (fun x => (relined str (fst p) (fst x), snd x)) (combine (asarray (energy (fun _ => 0) no_geom (fst p))) (asarray (snd p)))
  end.
Definition lines (shift : Qc -> Qc) (four_pi : Qc) (str : Qc -> string) (sort : bool) (s : spectrum) : result (list (line * Qc)) :=
  let! l := items_converted shift four_pi true sort s in Ok (flat_map (split_line str) l).
(* 905-910 spectrum: instance.asscalar of the energy, a number for these lines *)
Definition scalar (v : value) : option Qc := match v with Scalar q => Some q | Array [q] => Some q | Array _ => None end.
Definition spectrum_ (shift : Qc -> Qc) (four_pi : Qc) (str : Qc -> string) (sort : bool) (s : spectrum) : result (list (option Qc * Qc)) :=
  let! l := lines shift four_pi str sort s in Ok (map (fun p => (scalar (energy shift (sp_geom s) (fst p)), snd p)) l).
(* 912-917 spectrum_dict: dict(Counter(...)) counts the pairs *)
Definition pair_eqb (a b : option Qc * Qc) : bool :=
  match fst a, fst b with Some x, Some y => Qc_eqb x y | None, None => true | _, _ => false end && Qc_eqb (snd a) (snd b).
Definition counter (l : list (option Qc * Qc)) : list ((option Qc * Qc) * nat) :=
  fold_left (fun d p => assign pair_eqb p (match lookup pair_eqb p d with Some n => S n | None => 1%nat end) d) l [].
Definition spectrum_dict (shift : Qc -> Qc) (four_pi : Qc) (str : Qc -> string) (s : spectrum) : result (list ((option Qc * Qc) * nat)) :=
  let! l := spectrum_ shift four_pi str false s in Ok (counter l).
(* 1067-1071 power in keV/s *)
Definition power (shift : Qc -> Qc) (four_pi : Qc) (str : Qc -> string) (flux : Qc) (s : spectrum) : result Qc :=
  match sp_type s with
  | Rate =>
      let! l := spectrum_ shift four_pi str false s in
      let! t := mapM (fun p => match fst p with Some e => Ok (e * snd p) | None => Err TypeError end) l in
      Ok (total t * flux)
  | _ => Err RuntimeError
  end.

(* 1058-1065 energysource: self["Rayleigh"] is the value of the line, a number or an array without energy() *)
Definition energysource (s : spectrum) : result value :=
  let! v := getitem s {| k_kind := Plain; k_repr := "Rayleigh"; k_group := ""; k_energy := Scalar 0 |} in Err AttributeError.

(* 919-931 linegroups *)
Definition grouped_value (p : line * value) : value := match k_kind (fst p) with Fluo => Scalar (np_sum (snd p)) | _ => snd p end.
Definition add_group (ret : list (string * list (line * value))) (p : line * value) : list (string * list (line * value)) :=
  let g := k_group (fst p) in
  assign String.eqb g (assign same (fst p) (grouped_value p) (match lookup String.eqb g ret with Some d => d | None => [] end)) ret.
Definition linegroups (shift : Qc -> Qc) (four_pi : Qc) (convert : bool) (s : spectrum) : result (list (string * list (line * value))) :=
  let! l := items_converted shift four_pi convert false s in Ok (fold_left add_group l []).

(* 933-971 lineinfo.  Line objects with several energies or values are outside of the model (None). *)
Record info : Type := { i_name : string; i_group : string; i_label : option string; i_energy : Qc; i_area : Qc }.
Fixpoint argmax_from (best : nat) (q : Qc) (i : nat) (l : list Qc) : nat :=
  match l with [] => best | x :: l' => if Qc_ltb q x then argmax_from i x (S i) l' else argmax_from best q (S i) l' end.
Definition argmax (l : list Qc) : result nat := match l with [] => Err ValueError | q :: l' => Ok (argmax_from 0 q 1 l') end.
Definition shown (i : nat) : string := NilZero.string_of_uint (Nat.to_uint i).
Fixpoint enumerate {A} (i : nat) (l : list A) : list (nat * A) := match l with [] => [] | x :: l' => (i, x) :: enumerate (S i) l' end.
Definition scattering (g : string) : bool := String.eqb g "Compton" || String.eqb g "Rayleigh".
(* line.split() *)
Definition split (k : line) : result (list line) :=
  match k_kind k with
  | Plain => Err AttributeError
  | Fluo => Ok [k]
  | c => match asarray (k_energy k) with [_] => Ok [k] | l => Ok (map (fun e => {| k_kind := c; k_repr := k_repr k; k_group := k_group k; k_energy := Scalar e |}) l) end
  end.
Fixpoint all_scalar (l : list value) : option (list Qc) :=
  match l with [] => Some [] | v :: l' => match v, all_scalar l' with Scalar q, Some r => Some (q :: r) | _, _ => None end end.
Definition describe (shift : Qc -> Qc) (g : geom) (group : string) (lines : list (string * line)) (areas : list Qc) : result (option (list info)) :=
  let! imax := argmax areas in
  Ok (fold_right (fun x r =>
        match scalar (energy shift g (snd (fst (snd x)))), r with
        | Some e, Some l => Some ({| i_name := fst (fst (snd x)); i_group := group; i_label := if (fst x =? imax)%nat then Some group else None; i_energy := e; i_area := snd (snd x) |} :: l)
        | _, _ => None
        end) (Some []) (enumerate 0 (combine lines areas))).
Definition group_info (shift : Qc -> Qc) (g : geom) (p : string * list (line * value)) : result (option (list info)) :=
  let (group, d) := p in
  if scattering group then
    match d with
    | [] => Err StopIteration
    | (k, v) :: _ =>
        let! l := split k in
        describe shift g group (map (fun x => ((group ++ shown (fst x))%string, snd x)) (enumerate 0 l)) (asarray v)
    end
  else match all_scalar (map snd d) with
       | None => Ok None
       | Some areas => describe shift g group (map (fun x => (k_repr (fst x), fst x)) d) areas
       end.
Fixpoint all_info (l : list (option (list info))) : option (list info) :=
  match l with [] => Some [] | o :: l' => match o, all_info l' with Some a, Some b => Some (a ++ b) | _, _ => None end end.
(* lineinfo[linename] = {...}: the last with this name *)
Definition by_name (l : list info) : list info := map snd (fold_left (fun d x => assign String.eqb (i_name x) x d) l []).
Definition lineinfo (shift : Qc -> Qc) (four_pi : Qc) (convert sort : bool) (s : spectrum) : result (option (list info)) :=
  let! groups := linegroups shift four_pi convert s in
  let! l := mapM (group_info shift (sp_geom s)) groups in
  match all_info l with
  | None => Ok None
  | Some l => let r := by_name l in Ok (Some (if sort then sort_by i_energy r else r))
  end.

(* ---- channels: 712-724 mcagain, mcazero and 1073-1095 ---- *)
Definition mcagain (s : spectrum) : Qc := match sp_detector s with None => Q2Qc (5 # 1000) | Some (g, _) => g end.
Definition mcazero (s : spectrum) : Qc := match sp_detector s with None => 0 | Some (_, z) => z end.
Definition energytochannel (s : spectrum) (e : Qc) : Z := Z.max (rint ((e - mcazero s) / mcagain s)) 0.
Definition channellimits (s : spectrum) : result (Z * Z) :=
  match sp_xlim s with None => Err TypeError | Some (a, b) => Ok (energytochannel s a, energytochannel s b) end.
Definition channel_energy (s : spectrum) (c : Z) : Qc := mcazero s + mcagain s * Qc_of_Z c.
Definition energylimits (s : spectrum) : result (Qc * Qc) := let! (a, b) := channellimits s in Ok (channel_energy s a, channel_energy s b).
Definition mcachannels (s : spectrum) : result (list Z) :=
  let! (a, b) := channellimits s in Ok (map (fun i => (a + Z.of_nat i)%Z) (seq 0 (Z.to_nat (b + 1 - a)))).
Definition mcaenergies (s : spectrum) : result (list Qc) := let! l := mcachannels s in Ok (map (channel_energy s) l).

(* 1221-1249 groupspectra: zip(...)[0] is an error; before it the profiles need a geometry *)
Definition groupspectra (s : spectrum) : result unit := match sp_detector s with None => Err RuntimeError | Some _ => Err TypeError end.

(* ---- 807-822 __iadd__ and __add__, with the arrays in memory ---- *)
Inductive cell : Type := Num (q : Qc) | Ref (r : nat) | Fun (f : geom -> Qc).
Definition heap : Type := list (list Qc).
Record store : Type := { st_lines : list (line * cell); st_type : stype; st_geom : geom }.
(* other.items(): functions are called *)
Inductive object : Type := ONum (q : Qc) | ORef (r : nat).
Definition object_of (g : geom) (c : cell) : object := match c with Num q => ONum q | Ref r => ORef r | Fun f => ONum (f g) end.
Definition cell_of (o : object) : cell := match o with ONum q => Num q | ORef r => Ref r end.
Definition deref (h : heap) (r : nat) : list Qc := nth r h [].
(* c += o: arrays are changed in place and must keep their shape *)
Definition add_in_place (h : heap) (c : cell) (o : object) : result (heap * cell) :=
  match c, o with
  | Num a, ONum b => Ok (h, Num (a + b))
  | Num a, ORef r => Ok (h ++ [map (fun b => a + b) (deref h r)], Ref (List.length h))
  | Ref r, ONum b => Ok (set_nth h r (map (fun a => a + b) (deref h r)), Ref r)
  | Ref r, ORef r' =>
      let l := deref h r in let m := deref h r' in
      if (List.length l =? List.length m)%nat then Ok (set_nth h r (zip_with Qcplus l m), Ref r)
      else match m with [b] => Ok (set_nth h r (map (fun a => a + b) l), Ref r) | _ => Err ValueError end
  | Fun _, _ => Err TypeError
  end.
Fixpoint iadd_loop (h : heap) (mine : list (line * cell)) (others : list (line * object)) : heap * list (line * cell) * result unit :=
  match others with
  | [] => (h, mine, Ok tt)
  | (k, o) :: rest =>
      match lookup same k mine with
      | Some c => match add_in_place h c o with
                  | Ok (h', c') => iadd_loop h' (assign same k c' mine) rest
                  | Err e => (h, mine, Err e)
                  end
      | None => iadd_loop h (assign same k (cell_of o) mine) rest
      end
  end.
Definition stype_eqb (a b : stype) : bool :=
  match a, b with DiffCross, DiffCross | Cross, Cross | Rate, Rate | NoType, NoType => true | _, _ => false end.
Definition iadd (h : heap) (a b : store) : heap * store * result unit :=
  if stype_eqb (st_type a) (st_type b) then
    match iadd_loop h (st_lines a) (map (fun p => (fst p, object_of (st_geom b) (snd p))) (st_lines b)) with
    | (h', l, r) => (h', {| st_lines := l; st_type := st_type a; st_geom := st_geom a |}, r)
    end
  else (h, a, Err ValueError).
(* the value of a line *)
Definition content (h : heap) (g : geom) (c : cell) : value := match c with Num q => Scalar q | Ref r => Array (deref h r) | Fun f => Scalar (f g) end.
Definition value_of (h : heap) (s : store) (k : line) : option value := option_map (content h (st_geom s)) (lookup same k (st_lines s)).
