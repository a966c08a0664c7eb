(* Properties C21 and C22: frequency axes and Fourier transforms.  Complex numbers are
   pairs of Coq's real numbers. *)
From Verif Require Import FtModel FtSpec FtProofs FtDftProofs FtComplexModel FtComplexProofs.
From Coq Require Import Reals.
Local Open Scope Z_scope.

(* C21: shifting and shifting back, in either order, restores an array of any shape *)
Theorem C21_shift_back {V} mem mem' (a : arr V) c :
  (exists b a', fftshift mem a c = Ok b /\ ifftshift mem' b c = Ok a' /\ arr_eq a' a) /\
  (exists b a', ifftshift mem a c = Ok b /\ fftshift mem' b c = Ok a' /\ arr_eq a' a).
Proof. exact (shift_back mem mem' a c). Qed.
Print Assumptions C21_shift_back.
Definition ex_line : arr Z := {| shp := [5%nat]; elt := fun o => match o with [i] => Z.of_nat i | _ => -1 end |}.
Example C21_shift_example :
  match fftshift (fun _ => 77) ex_line Numpy with
  | Ok b => shp b = [5%nat] /\ map (fun i => elt b [i]) (seq 0 5) = [3; 4; 0; 1; 2]
  | Err _ => False end.
Proof. vm_compute. repeat split. Qed.

(* where each value goes *)
Theorem C21_shift_moves {V} mem (a : arr V) c :
  (exists b, fftshift mem a c = Ok b /\ shp b = shp a /\
    forall o, inside (shp a) o -> elt b o = elt a (unshifted_dims (lowest c) (shp a) o)) /\
  (exists b, ifftshift mem a c = Ok b /\ shp b = shp a /\
    forall o, inside (shp a) o -> elt b o = elt a (unshifted_dims (fun n => - lowest c n) (shp a) o)).
Proof. exact (conj (fftshift_ok mem a c) (ifftshift_ok mem a c)). Qed.
Print Assumptions C21_shift_moves.
Example C21_moves_example : inside (shp ex_line) [0%nat] /\ unshifted_dims (lowest Numpy) (shp ex_line) [0%nat] = [3%nat]
  /\ map (fun i => unshifted (lowest Idl 4) 4 i) (seq 0 4) = [3; 0; 1; 2]%nat
  /\ map (fun i => unshifted (lowest Numpy 4) 4 i) (seq 0 4) = [2; 3; 0; 1]%nat.
Proof. split; [repeat constructor|]. vm_compute. auto. Qed.

(* the frequency axis: the centred one is increasing and is the shifted plain one; the
   value at position j of the plain one is the one frequency k / (n d) with k congruent
   to j in the range of the convention *)
Theorem C21_frequency_axis mem mem' n d c : (0 < n)%nat -> (0 < d)%Qc ->
  exists l lc, fftfreq mem (Z.of_nat n) d false c = Ok l /\ fftfreq mem' (Z.of_nat n) d true c = Ok lc /\
    length l = n /\ length lc = n /\ NoDup l /\ StronglySorted Qclt lc /\
    (forall i, (i < n)%nat -> nth_error lc i = nth_error l (unshifted (lowest c (Z.of_nat n)) n i)) /\
    (forall j, (j < n)%nat -> exists k, nth_error l j = Some (Qc_of_Z k / (Qc_of_Z (Z.of_nat n) * d))%Qc /\
      (k - Z.of_nat j) mod Z.of_nat n = 0 /\ lowest c (Z.of_nat n) <= k < lowest c (Z.of_nat n) + Z.of_nat n).
Proof. exact (frequency_axis mem mem' n d c). Qed.
Print Assumptions C21_frequency_axis.
Example C21_frequency_example :
  fftfreq (fun _ => 9) 4 (Qc_of_Z 1) false Numpy = Ok [0; Q2Qc (1 # 4); Q2Qc (-2 # 4); Q2Qc (-1 # 4)]%Qc /\
  fftfreq (fun _ => 9) 4 (Qc_of_Z 1) true Idl = Ok [Q2Qc (-1 # 4); 0; Q2Qc (1 # 4); Q2Qc (2 # 4)]%Qc.
Proof. split; apply Qc_ok_list_eq; vm_compute; reflexivity. Qed.

(* C22: transforming and transforming back returns the array: any sampling distance,
   any range of as many positions as there are points, either normalisation, centred or
   not *)
Theorem C22_roundtrip mem (f : list (cnum complex_reals)) dx x0 x1 cen norm : (0 < length f)%nat -> dx <> 0%Qc ->
  match x1 with Some x1 => x1 - x0 + 1 = Z.of_nat (length f) | None => x0 = 0 end ->
  exists F, dft complex_reals mem f dx x0 x1 [] cen false norm = Ok F /\ length F = length f /\
    dft complex_reals mem F dx x0 x1 [] cen true norm = Ok f.
Proof. exact (roundtrip_total cx_laws mem f dx x0 x1 cen norm). Qed.
Print Assumptions C22_roundtrip.
Definition ex_signal : list (cnum complex_reals) := [(1, 0); (0, 1); (2, -1)]%R.
Example C22_roundtrip_example : (0 < length ex_signal)%nat /\ Qc_of_Z 2 <> 0%Qc /\ 4 - 2 + 1 = Z.of_nat (length ex_signal).
Proof. repeat split; [cbn; lia|discriminate]. Qed.

(* the inverse evaluated on a range of positions i dx (i from x0 to x1), with
   frequencies belonging to the sampling distance d: wherever a position coincides with
   a multiple m d, the sample of f with number m modulo the length is returned.  With
   d = dx this is a region of the periodic array; with d = s dx it is the s times
   oversampled array. *)
Theorem C22_resampled mem (f F : list (cnum complex_reals)) d u dx x0 x1 cen norm g : (0 < length f)%nat -> d <> 0%Qc ->
  dft complex_reals mem f 1 0 None [] cen false norm = Ok F ->
  fftfreq mem (Z.of_nat (length f)) d cen Numpy = Ok u ->
  dft complex_reals mem F dx x0 (Some x1) u cen true norm = Ok g ->
  length g = Z.to_nat (x1 - x0 + 1) /\
  forall i m, (i < length g)%nat -> (Qc_of_Z (x0 + Z.of_nat i) * dx)%Qc = (Qc_of_Z m * d)%Qc ->
    nth_error g i = nth_error f (Z.to_nat (m mod Z.of_nat (length f))).
Proof. exact (resampled cx_laws mem f F d u dx x0 x1 cen norm g). Qed.
Print Assumptions C22_resampled.
Example C22_resampled_example : exists F u g,
  dft complex_reals (fun _ => 0) ex_signal 1 0 None [] false false Numpy = Ok F /\
  fftfreq (fun _ => 0) (Z.of_nat (length ex_signal)) (Qc_of_Z 2) false Numpy = Ok u /\
  dft complex_reals (fun _ => 0) F 1 (-1) (Some 3) u false true Numpy = Ok g /\ length g = 5%nat /\
  nth_error g 3 = nth_error ex_signal 1.
Proof.
  do 3 eexists. split; [reflexivity|]. split; [reflexivity|]. split; [reflexivity|]. split; [reflexivity|].
  refine (proj2 (resampled cx_laws (fun _ => 0) ex_signal _ (Qc_of_Z 2) _ 1 (-1) 3 false Numpy _ _ _ eq_refl eq_refl eq_refl) 3%nat 1 _ _).
  - cbn. lia.
  - discriminate.
  - apply Nat.ltb_lt. reflexivity.
  - apply Qc_is_canon. reflexivity.
Qed.

(* asking for the full range of positions explicitly gives the default transform *)
Theorem C22_paths_agree mem (f : list (cnum complex_reals)) inv norm : (0 < length f)%nat ->
  dft complex_reals mem f 1 0 (Some (Z.of_nat (length f) - 1)) [] false inv norm =
  dft complex_reals mem f 1 0 None [] false inv norm.
Proof. exact (paths_agree cx_laws mem f inv norm). Qed.
Print Assumptions C22_paths_agree.
Example C22_paths_example : (0 < length ex_signal)%nat.
Proof. cbn. lia. Qed.

Theorem C22_linear mem a (f : list (cnum complex_reals)) b g dx x0 x1 u cen inv norm F G : length g = length f ->
  dft complex_reals mem f dx x0 x1 u cen inv norm = Ok F -> dft complex_reals mem g dx x0 x1 u cen inv norm = Ok G ->
  dft complex_reals mem (combination complex_reals a f b g) dx x0 x1 u cen inv norm = Ok (combination complex_reals a F b G).
Proof. exact (cx_linear mem a f b g dx x0 x1 u cen inv norm F G). Qed.
Print Assumptions C22_linear.

(* rotating the array multiplies coefficient k by exp(2 pi i k s / n) *)
Theorem C22_rotation mem (f : list (cnum complex_reals)) s norm F F' : (s <= length f)%nat ->
  dft complex_reals mem f 1 0 None [] false false norm = Ok F ->
  dft complex_reals mem (skipn s f ++ firstn s f) 1 0 None [] false false norm = Ok F' ->
  length F' = length F /\
  forall k, (k < length F)%nat ->
    cnth complex_reals F' k = cmul complex_reals (cexp complex_reals (nat_ratio (k * s) (length f))) (cnth complex_reals F k).
Proof. exact (rotated cx_laws mem f s norm F F'). Qed.
Print Assumptions C22_rotation.
Example C22_rotation_example : exists F F',
  dft complex_reals (fun _ => 0) ex_signal 1 0 None [] false false Idl = Ok F /\
  dft complex_reals (fun _ => 0) (skipn 2 ex_signal ++ firstn 2 ex_signal) 1 0 None [] false false Idl = Ok F' /\
  dft complex_reals (fun _ => 0) (combination complex_reals (1, 0)%R ex_signal (0, 1)%R (skipn 2 ex_signal ++ firstn 2 ex_signal))
    1 0 None [] false false Idl = Ok (combination complex_reals (1, 0)%R F (0, 1)%R F').
Proof. do 2 eexists. split; [reflexivity|]. split; reflexivity || (apply cx_linear; reflexivity). Qed.

(* two dimensions *)
Theorem C22_roundtrip_2d mem (f : arr (cnum complex_reals)) r c dx x0 x1 dy y0 y1 cen norm : shp f = [r; c] -> (0 < r)%nat -> (0 < c)%nat ->
  dx <> 0%Qc -> dy <> 0%Qc ->
  last_x c x1 - x0 + 1 = Z.of_nat c -> last_x r y1 - y0 + 1 = Z.of_nat r ->
  exists F g, dft2 complex_reals mem f dx x0 x1 [] dy y0 y1 [] cen false norm = Ok F /\ shp F = [r; c] /\
    dft2 complex_reals mem F dx x0 x1 [] dy y0 y1 [] cen true norm = Ok g /\ arr_eq g f.
Proof. exact (roundtrip2 cx_laws mem f r c dx x0 x1 dy y0 y1 cen norm). Qed.
Print Assumptions C22_roundtrip_2d.
Definition ex_image : arr (cnum complex_reals) :=
  {| shp := [2; 3]%nat; elt := fun o => match o with [i; j] => (INR i, INR j) | _ => (0, 0)%R end |}.
Example C22_roundtrip_2d_example : shp ex_image = [2; 3]%nat /\ last_x 3 None - 0 + 1 = Z.of_nat 3 /\ last_x 2 (Some 6) - 5 + 1 = Z.of_nat 2.
Proof. repeat split. Qed.

Theorem C22_resampled_2d mem (f : arr (cnum complex_reals)) r c F dx x0 x1 u dx' dy y0 y1 v dy' cen norm :
  shp f = [r; c] -> (0 < r)%nat -> (0 < c)%nat ->
  dx' <> 0%Qc -> dy' <> 0%Qc -> x0 <= x1 -> y0 <= y1 ->
  dft2 complex_reals mem f 1 0 None [] 1 0 None [] cen false norm = Ok F ->
  fftfreq mem (Z.of_nat c) dx' cen Numpy = Ok u -> fftfreq mem (Z.of_nat r) dy' cen Numpy = Ok v ->
  exists g, dft2 complex_reals mem F dx x0 (Some x1) u dy y0 (Some y1) v cen true norm = Ok g /\
    shp g = [Z.to_nat (y1 - y0 + 1); Z.to_nat (x1 - x0 + 1)] /\
    forall i j my mx, inside (shp g) [i; j] ->
      (Qc_of_Z (y0 + Z.of_nat i) * dy = Qc_of_Z my * dy')%Qc -> (Qc_of_Z (x0 + Z.of_nat j) * dx = Qc_of_Z mx * dx')%Qc ->
      elt g [i; j] = elt f [Z.to_nat (my mod Z.of_nat r); Z.to_nat (mx mod Z.of_nat c)].
Proof. exact (resampled2 cx_laws mem f r c F dx x0 x1 u dx' dy y0 y1 v dy' cen norm). Qed.
Print Assumptions C22_resampled_2d.
Example C22_resampled_2d_example : exists F u v,
  dft2 complex_reals (fun _ => 0) ex_image 1 0 None [] 1 0 None [] false false Numpy = Ok F /\
  fftfreq (fun _ => 0) (Z.of_nat 3) (Qc_of_Z 2) false Numpy = Ok u /\ fftfreq (fun _ => 0) (Z.of_nat 2) (Qc_of_Z 1) false Numpy = Ok v.
Proof. do 3 eexists. repeat split; reflexivity. Qed.

(* requests that cannot be met are refused *)
Theorem C22_refused mem (f : list (cnum complex_reals)) dx x0 x1 u cen norm :
  (forall inv, x1 < x0 -> dft complex_reals mem f dx x0 (Some x1) u cen inv norm = Err ValueError) /\
  (Z.to_nat (x1 - x0 + 1) <> length f -> dft complex_reals mem f dx x0 (Some x1) u cen false norm = Err ValueError) /\
  (forall x1', u <> [] -> length u <> length f -> dft complex_reals mem f dx x0 x1' u cen true norm = Err ValueError).
Proof.
  exact (conj (fun inv => refused_order mem f dx x0 x1 u cen inv norm)
    (conj (refused_points mem f dx x0 x1 u cen norm) (fun x1' => refused_frequencies mem f dx x0 x1' u cen norm))).
Qed.
Print Assumptions C22_refused.
Example C22_refused_example : dft complex_reals (fun _ => 0) ex_signal 1 0 (Some 1) [] false false Numpy = Err ValueError
  /\ dft complex_reals (fun _ => 0) ex_signal 1 3 (Some 1) [] false true Numpy = Err ValueError
  /\ dft complex_reals (fun _ => 0) ex_signal 1 0 None [1%Qc] false true Numpy = Err ValueError.
Proof. repeat split. Qed.
