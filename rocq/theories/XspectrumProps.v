(* C103: X-ray spectra. *)
From Coq Require Import String.
From Verif Require Import Base QcTac ScalarModel ScalarProofs XspectrumModel XspectrumSpec XspectrumProofs.
Local Open Scope string_scope.
Local Open Scope list_scope.
Local Open Scope Qc_scope.

Definition ex_fluo : line := {| k_kind := Fluo; k_repr := "Fe-KL3"; k_group := "Fe-KA"; k_energy := Scalar (Qc_of_Z 6) |}.
Definition ex_fluo2 : line := {| k_kind := Fluo; k_repr := "Fe-KL2"; k_group := "Fe-KA"; k_energy := Scalar (Qc_of_Z 5) |}.
Definition ex_ray : line := {| k_kind := Rayleigh; k_repr := "Rayleigh"; k_group := "Rayleigh"; k_energy := Array [Qc_of_Z 8; Qc_of_Z 9] |}.
Definition ex_spectrum : spectrum :=
  {| sp_lines := [(ex_ray, Val (Array [Qc_of_Z 3; Qc_of_Z 5])); (ex_fluo, Val (Array [Qc_of_Z 1; Qc_of_Z 2])); (ex_fluo2, Call (fun _ => Scalar (Qc_of_Z 4)))];
     sp_density := Some (Qc_of_Z 2); sp_type := Rate; sp_geom := no_geom; sp_detector := Some (Qc_of_Z 2, 1); sp_xlim := Some (Qc_of_Z 2, Qc_of_Z 8) |}.

(* Weights are divided by their sum and multiply the values of the lines with as many values as weights; other lines stay. *)
Theorem C103_weights : forall s w, sum (numbers w) <> 0 -> Forall2 (weighted s w) (sp_lines s) (sp_lines (apply_weights (Some w) s)).
Proof. exact weights_spec. Qed.
Print Assumptions C103_weights.
Example C103_weights_ex : sum (numbers (Array [Qc_of_Z 1; Qc_of_Z 3])) <> 0 /\
  match items (apply_weights (Some (Array [Qc_of_Z 1; Qc_of_Z 3])) ex_spectrum) with
  | [(_, Array [a; b]); (_, Array [c; d]); (_, Scalar e)] => a * Qc_of_Z 4 = Qc_of_Z 3 /\ b * Qc_of_Z 4 = Qc_of_Z 15 /\ c * Qc_of_Z 4 = Qc_of_Z 1 /\ d * Qc_of_Z 4 = Qc_of_Z 6 /\ e = Qc_of_Z 4
  | _ => False
  end.
Proof. split; [intros H; apply (f_equal this) in H; vm_compute in H; discriminate|]. vm_compute. repeat split; apply Qc_is_canon; reflexivity. Qed.

(* Adding the sources of the fluorescence lines does not change the lines and the areas of the spectrum. *)
Theorem C103_sum_sources : forall shift four_pi str sort s, lines shift four_pi str sort (sum_sources s) = lines shift four_pi str sort s.
Proof. exact lines_sum. Qed.
Print Assumptions C103_sum_sources.

(* Units: cross sections become probabilities by multiplication with the density, over 4 pi unless they are differential; without
   density or for rates it is an error.  Rates are not converted. *)
Theorem C103_probabilities : forall shift four_pi s d, sp_density s = Some d ->
  (sp_type s = Cross -> exists l, probabilities shift four_pi s = Ok l /\ Forall2 (fun p q => fst q = fst p /\ numbers (snd q) = map (fun x => x * (d / four_pi)) (numbers (snd p))) (items s) l) /\
  (sp_type s = DiffCross -> exists l, probabilities shift four_pi s = Ok l /\ Forall2 (fun p q => fst q = fst p /\ numbers (snd q) = map (fun x => x * d) (numbers (snd p))) (items s) l).
Proof. exact probabilities_units. Qed.
Print Assumptions C103_probabilities.
Theorem C103_probabilities_density : forall shift four_pi s, (sp_type s = Cross \/ sp_type s = DiffCross) -> sp_density s = None -> probabilities shift four_pi s = Err TypeError.
Proof. exact probabilities_density. Qed.
Print Assumptions C103_probabilities_density.
Theorem C103_probabilities_type : forall shift four_pi s, sp_type s <> Cross -> sp_type s <> DiffCross -> probabilities shift four_pi s = Err RuntimeError.
Proof. exact probabilities_type. Qed.
Print Assumptions C103_probabilities_type.
Theorem C103_rates : forall shift four_pi s, sp_type s = Rate -> rates shift four_pi s = Ok (items s).
Proof. exact rates_rate. Qed.
Print Assumptions C103_rates.
Theorem C103_rates_type : forall shift four_pi s, sp_type s <> Rate -> rates shift four_pi s = Err RuntimeError.
Proof. exact rates_type. Qed.
Print Assumptions C103_rates_type.

(* Sorting gives the same lines in the order of their largest energy; lines with the same energy keep their order. *)
Theorem C103_sorted : forall shift s l, items_sorted shift true s = Ok l ->
  Permutation l (items s) /\ exists keys, mapM (fun p => np_max (energy shift (sp_geom s) (fst p))) l = Ok keys /\ StronglySorted Qcle keys.
Proof. exact items_sorted_spec. Qed.
Print Assumptions C103_sorted.
Theorem C103_sorted_stable : forall shift s l q, items_sorted shift true s = Ok l ->
  filter (fun p => match np_max (energy shift (sp_geom s) (fst p)) with Ok e => Qc_eqb e q | Err _ => false end) l =
  filter (fun p => match np_max (energy shift (sp_geom s) (fst p)) with Ok e => Qc_eqb e q | Err _ => false end) (items s).
Proof. exact items_sorted_stable. Qed.
Print Assumptions C103_sorted_stable.
Theorem C103_np_max : forall v m, np_max v = Ok m -> In m (numbers v) /\ Forall (fun x => x <= m) (numbers v).
Proof. exact np_max_spec. Qed.
Print Assumptions C103_np_max.
Example C103_sorted_ex : exists l, items_sorted (fun _ => 0) true ex_spectrum = Ok l /\ map (fun p => k_repr (fst p)) l = ["Fe-KL2"; "Fe-KL3"; "Rayleigh"].
Proof. eexists. split; reflexivity. Qed.

(* The areas of the lines sum up to the values of the spectrum, converted. *)
Theorem C103_lines_total : forall shift four_pi str sort s l m, line_multiplier four_pi true s = Ok m -> Forall matched (items s) ->
  lines shift four_pi str sort s = Ok l -> sum (map snd l) = sum (map (fun p => sum (numbers (snd p))) (items s)) * m.
Proof. exact lines_total. Qed.
Print Assumptions C103_lines_total.
Theorem C103_power : forall shift four_pi str flux s l, sp_type s = Rate -> spectrum_ shift four_pi str false s = Ok (map (fun p => (Some (fst p), snd p)) l) ->
  power shift four_pi str flux s = Ok (sum (map (fun p => fst p * snd p) l) * flux).
Proof. exact power_rate. Qed.
Print Assumptions C103_power.
Theorem C103_power_type : forall shift four_pi str flux s, sp_type s <> Rate -> power shift four_pi str flux s = Err RuntimeError.
Proof. exact power_type. Qed.
Print Assumptions C103_power_type.
Example C103_lines_ex : Forall matched (items ex_spectrum) /\ line_multiplier 1 true ex_spectrum = Ok 1 /\
  exists l p, lines (fun _ => 0) 1 (fun _ => "line") false ex_spectrum = Ok l /\ map (fun x => k_repr (fst x)) l = ["Rayleigh"; "Rayleigh"; "Fe-KL3"; "Fe-KL2"] /\
    power (fun _ => 0) 1 (fun _ => "line") (Qc_of_Z 2) ex_spectrum = Ok p /\ p = Qc_of_Z 214.
Proof.
  split; [constructor; [right; reflexivity|]; constructor; [left; reflexivity|]; constructor; [left; reflexivity|constructor]|]. split; [reflexivity|]. eexists _, _. split; [reflexivity|]. split; [reflexivity|]. split; [reflexivity|]. apply Qc_is_canon. vm_compute. reflexivity.
Qed.

(* Compton scattering adds a constant to the inverse of the energy: the energy gets lower. *)
Theorem C103_compton : forall shift p k e, k_kind k = Compton -> k_energy k = Scalar e -> 0 < e -> p <> 0 -> 0 <= shift p ->
  exists e', energy shift {| polar := Some p; azimuth := None |} k = Scalar e' /\ / e' = / e + shift p /\ 0 < e' /\ e' <= e.
Proof. exact compton_energy. Qed.
Print Assumptions C103_compton.
Theorem C103_no_angle : forall shift g k, polar g = None \/ polar g = Some 0 \/ k_kind k <> Compton -> energy shift g k = k_energy k.
Proof. exact energy_unchanged. Qed.
Print Assumptions C103_no_angle.

(* Violated: spectrum_dict should give the intensity at every energy.  It gives how often a pair of energy and intensity occurs. *)
Theorem C103_dict_refuted : forall shift four_pi str s l p, spectrum_ shift four_pi str false s = Ok l ->
  exists d, spectrum_dict shift four_pi str s = Ok d /\ (lookup pair_eqb p d <> None <-> In p l) /\ (forall n, lookup pair_eqb p d = Some n -> n = count_occ pair_dec l p).
Proof. exact spectrum_counts. Qed.
Print Assumptions C103_dict_refuted.
(* Violated: the energy of the source should be found. *)
Theorem C103_energysource_refuted : forall s v, energysource s <> Ok v.
Proof. exact energysource_never. Qed.
Print Assumptions C103_energysource_refuted.
(* Violated: groupspectra should give the profiles of the groups. *)
Theorem C103_groupspectra_refuted : forall s u, groupspectra s <> Ok u.
Proof. exact groupspectra_never. Qed.
Print Assumptions C103_groupspectra_refuted.

(* Every line is in exactly one group, its own; groups are not empty. *)
Theorem C103_groups : forall shift four_pi convert s l, items_converted shift four_pi convert false s = Ok l -> distinct_lines l ->
  exists ret, linegroups shift four_pi convert s = Ok ret /\ NoDup (map fst ret) /\
    (forall g d, In (g, d) ret -> d <> [] /\ d = of_group g l) /\ (forall p, In p l -> exists d, In (k_group (fst p), d) ret).
Proof. exact groups_partition. Qed.
Print Assumptions C103_groups.
(* The peaks: the areas sum up to the values of the lines, the names are those of the lines (numbered for scattering), in the order of
   their energies when sorted; in every group the label is on one peak and no peak is larger. *)
Theorem C103_lineinfo : forall shift four_pi convert srt s l r, items_converted shift four_pi convert false s = Ok l -> distinct_lines l -> Forall proper l ->
  NoDup (flat_map (fun p => peak_names (fst p)) l) -> lineinfo shift four_pi convert srt s = Ok (Some r) ->
  sum (map i_area r) = sum (map (fun p => sum (numbers (snd p))) l) /\
  Permutation (map i_name r) (flat_map (fun p => peak_names (fst p)) l) /\
  (srt = true -> ascending_by i_energy r) /\
  (forall p, In p l -> exists x, In x r /\ i_group x = k_group (fst p) /\ i_label x = Some (k_group (fst p)) /\
     forall y, In y r -> i_group y = k_group (fst p) -> i_area y <= i_area x /\ (i_label y <> None -> y = x)).
Proof. exact lineinfo_spec. Qed.
Print Assumptions C103_lineinfo.
Example C103_lineinfo_ex : exists l r, items_converted (fun _ => 0) 1 true false ex_spectrum = Ok l /\ distinct_lines l /\ Forall proper l /\
  NoDup (flat_map (fun p => peak_names (fst p)) l) /\ lineinfo (fun _ => 0) 1 true true ex_spectrum = Ok (Some r) /\
  map (fun x => (i_name x, i_label x)) r = [("Fe-KL2", Some "Fe-KA"); ("Fe-KL3", None); ("Rayleigh0", None); ("Rayleigh1", Some "Rayleigh")].
Proof.
  eexists _, _. split; [reflexivity|]. split; [repeat constructor; cbn; intuition discriminate|].
  split; [constructor; [split; [reflexivity|split; [reflexivity|right; reflexivity]]|]; repeat constructor; unfold scatters; intros [H|H]; discriminate|]. split; [repeat constructor; cbn; intuition discriminate|]. split; reflexivity.
Qed.

(* Channels: an energy is in the channel that is nearest, energies below zero in channel 0; the energy of a channel is in it. *)
Theorem C103_channel : forall s e, 0 < mcagain s -> mcazero s - mcagain s * half <= e ->
  channel_energy s (energytochannel s e) - mcagain s * half <= e /\ e <= channel_energy s (energytochannel s e) + mcagain s * half.
Proof. exact channel_near. Qed.
Print Assumptions C103_channel.
Theorem C103_channel_low : forall s e, 0 < mcagain s -> e <= mcazero s + mcagain s * half -> energytochannel s e = 0%Z.
Proof. exact channel_low. Qed.
Print Assumptions C103_channel_low.
Theorem C103_channel_back : forall s c, mcagain s <> 0 -> (0 <= c)%Z -> energytochannel s (mcazero s + mcagain s * Qc_of_Z c) = c.
Proof. exact channel_back. Qed.
Print Assumptions C103_channel_back.
Theorem C103_channel_mono : forall s e e', 0 < mcagain s -> e <= e' -> (energytochannel s e <= energytochannel s e')%Z.
Proof. exact channel_mono. Qed.
Print Assumptions C103_channel_mono.
Theorem C103_channels : forall s a b l, sp_xlim s = Some (a, b) -> mcachannels s = Ok l ->
  forall c, In c l <-> (energytochannel s a <= c <= energytochannel s b)%Z.
Proof. exact channels_spec. Qed.
Print Assumptions C103_channels.
Theorem C103_energies : forall s l, mcachannels s = Ok l -> mcaenergies s = Ok (map (fun c => mcazero s + mcagain s * Qc_of_Z c) l).
Proof. exact energies_spec. Qed.
Print Assumptions C103_energies.
Theorem C103_limits : forall s a b, sp_xlim s = Some (a, b) -> energylimits s = Ok (mcazero s + mcagain s * Qc_of_Z (energytochannel s a), mcazero s + mcagain s * Qc_of_Z (energytochannel s b)).
Proof. exact energylimits_spec. Qed.
Print Assumptions C103_limits.
Theorem C103_no_limits : forall s, sp_xlim s = None -> mcachannels s = Err TypeError /\ energylimits s = Err TypeError /\ mcaenergies s = Err TypeError.
Proof. exact channels_nolimits. Qed.
Print Assumptions C103_no_limits.
Theorem C103_calibration : forall s g z, (sp_detector s = Some (g, z) -> mcagain s = g /\ mcazero s = z) /\ (sp_detector s = None -> mcagain s * Qc_of_Z 1000 = Qc_of_Z 5 /\ mcazero s = 0).
Proof. exact calibration. Qed.
Print Assumptions C103_calibration.
Example C103_channel_ex : mcachannels ex_spectrum = Ok [0; 1; 2; 3; 4]%Z /\ 0 < mcagain ex_spectrum /\ mcazero ex_spectrum - mcagain ex_spectrum * half <= Qc_of_Z 2.
Proof. split; [reflexivity|]. split; vm_compute; congruence. Qed.

(* Sums of spectra: line by line; the second spectrum keeps its values. *)
Theorem C103_sum : forall h a b, st_type a = st_type b -> distinct_lines (st_lines b) -> allocated h a -> allocated h b -> separate a b -> summable h a b ->
  exists h' a', iadd h a b = (h', a', Ok tt) /\
    (forall k, value_of h' a' k = match value_of h a k, value_of h b k with Some v, Some w => Some (plus v w) | Some v, None => Some v | None, o => o end) /\
    (forall k, value_of h' b k = value_of h b k).
Proof. exact iadd_sum. Qed.
Print Assumptions C103_sum.
Definition ex_a : store := {| st_lines := [(ex_fluo, Ref 0); (ex_ray, Num (Qc_of_Z 7))]; st_type := Rate; st_geom := no_geom |}.
Definition ex_b : store := {| st_lines := [(ex_fluo2, Fun (fun _ => Qc_of_Z 4)); (ex_fluo, Ref 1); (ex_ray, Ref 2)]; st_type := Rate; st_geom := no_geom |}.
Definition ex_h : heap := [[Qc_of_Z 1; Qc_of_Z 2]; [Qc_of_Z 3; Qc_of_Z 4]; [Qc_of_Z 5; Qc_of_Z 6]].
Example C103_sum_ex : distinct_lines (st_lines ex_b) /\ allocated ex_h ex_a /\ allocated ex_h ex_b /\ separate ex_a ex_b /\ summable ex_h ex_a ex_b.
Proof.
  split; [repeat constructor; cbn; intuition discriminate|].
  split; [intros k r H; cbn in *; repeat (destruct H as [H|H]; [try discriminate; assert (r = 0)%nat by congruence; lia|]); contradiction|].
  split; [intros k r H; cbn in *; repeat (destruct H as [H|H]; [try discriminate; assert (r = 1 \/ r = 2)%nat by (first [left; congruence|right; congruence]); lia|]); contradiction|].
  split.
  - split; [|split]; intros k k' r H H'; cbn in *; repeat (destruct H as [H|H]; [repeat (destruct H' as [H'|H']; [congruence|]); contradiction|]); contradiction.
  - intros k k' c c' H H' E. cbn in *. repeat (destruct H as [H|H]; [|]); try contradiction; assert (exists x, x = (k, c)) as [x Hx] by eauto;
    repeat (destruct H' as [H'|H']; [|]); try contradiction; injection H as <- <-; injection H' as <- <-; cbn in E; try discriminate; (split; [discriminate|exact I || reflexivity]).
Qed.
Theorem C103_sum_type : forall h a b, st_type a <> st_type b -> iadd h a b = (h, a, Err ValueError).
Proof. exact iadd_type. Qed.
Print Assumptions C103_sum_type.
(* A line that is a function of the geometry cannot be added to, and is evaluated with the geometry of its own spectrum. *)
Theorem C103_sum_function : forall h a b k f, lookup same k (st_lines a) = Some (Fun f) -> value_of h b k <> None -> exists e, snd (iadd h a b) = Err e.
Proof. exact iadd_function. Qed.
Print Assumptions C103_sum_function.
Theorem C103_sum_frozen : forall h a b k f, st_type a = st_type b -> distinct_lines (st_lines b) -> allocated h a -> allocated h b -> separate a b -> summable h a b ->
  value_of h a k = None -> lookup same k (st_lines b) = Some (Fun f) ->
  exists h' a', iadd h a b = (h', a', Ok tt) /\ forall g, value_of h' {| st_lines := st_lines a'; st_type := st_type a'; st_geom := g |} k = Some (Scalar (f (st_geom b))).
Proof. exact iadd_frozen. Qed.
Print Assumptions C103_sum_frozen.
(* Violated: a sum should not change the other spectra.  The arrays of the lines that were not there are shared: adding a third
   spectrum changes the second. *)
Theorem C103_shared_refuted : forall k l m t g g1 g2, List.length l = List.length m ->
  let a := {| st_lines := []; st_type := t; st_geom := g |} in
  let b := {| st_lines := [(k, Ref 0)]; st_type := t; st_geom := g1 |} in
  let c := {| st_lines := [(k, Ref 1)]; st_type := t; st_geom := g2 |} in
  exists h1 a1 h2 a2, iadd [l; m] a b = (h1, a1, Ok tt) /\ iadd h1 a1 c = (h2, a2, Ok tt) /\
    value_of [l; m] b k = Some (Array l) /\ value_of h2 b k = Some (plus (Array l) (Array m)).
Proof. exact iadd_shared. Qed.
Print Assumptions C103_shared_refuted.
(* Violated: a sum that fails should leave the spectrum as it was. *)
Theorem C103_half_refuted : forall k k' x y z f h t g g1, k_repr k <> k_repr k' ->
  let a := {| st_lines := [(k, Num x); (k', Fun f)]; st_type := t; st_geom := g |} in
  let b := {| st_lines := [(k, Num y); (k', Num z)]; st_type := t; st_geom := g1 |} in
  exists a', iadd h a b = (h, a', Err TypeError) /\ value_of h a' k = Some (Scalar (x + y)).
Proof. exact iadd_half. Qed.
Print Assumptions C103_half_refuted.
