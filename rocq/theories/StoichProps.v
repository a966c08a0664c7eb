(* C25-C28, C60: compositions of compounds and mixtures *)
From Coq Require Import String.
From Verif Require Import StoichModel StoichSpec FitProofs MatProofs StoichProofs StoichMixProofs StoichMixtureProofs StoichElemProofs.
Local Open Scope Qc_scope.

(* C25: fractions of another kind are proportional to the amounts of that kind, not
   negative, and sum to one *)
Theorem C25_convert a b f rho MM : a <> b -> valid f rho MM ->
  exists g t, conv a b f rho MM = Ok g /\ length g = length f /\ nonneg g /\ qsum g = 1 /\ 0 < t /\
    forall i, (i < length f)%nat -> nth i g 0 * t = amount a b (nth i f 0) (nth i rho 0) (nth i MM 0).
Proof. exact (converted a b f rho MM). Qed.
Print Assumptions C25_convert.
Theorem C25_roundtrip a b f rho MM : a <> b -> valid f rho MM ->
  exists g, conv a b f rho MM = Ok g /\ conv b a g rho MM = Ok (map (fun q => q / qsum f) f).
Proof. exact (roundtrip a b f rho MM). Qed.
Print Assumptions C25_roundtrip.
Theorem C25_third a b d f rho MM : a <> b -> b <> d -> a <> d -> valid f rho MM ->
  exists g, conv a b f rho MM = Ok g /\ conv b d g rho MM = conv a d f rho MM.
Proof. exact (third a b d f rho MM). Qed.
Print Assumptions C25_third.
Theorem C25_scaled a b k f rho MM : a <> b -> valid f rho MM -> 0 < k -> conv a b (scale k f) rho MM = conv a b f rho MM.
Proof. exact (scaled a b k f rho MM). Qed.
Print Assumptions C25_scaled.
Example C25_example : valid [0; Qc_of_Z 2; 1] [1; Qc_of_Z 2; Qc_of_Z 3] [Qc_of_Z 18; Qc_of_Z 58; 1].
Proof. repeat split; repeat constructor; discriminate. Qed.

(* C26: the density does not depend on the kind of fractions, and lies between the
   densities of the components *)
Theorem C26_densities w rho MM : valid w rho MM -> qsum w = 1 ->
  exists n v d, conv Mass Mole w rho MM = Ok n /\ conv Mass Volume w rho MM = Ok v /\
    density_from_massfrac w rho = Ok d /\ density_from_molefrac n rho MM = Ok d /\ density_from_volumefrac v rho = Ok d /\
    0 < d /\ (forall lo, Forall (Qcle lo) rho -> lo <= d) /\ (forall hi, Forall (fun r => r <= hi) rho -> d <= hi) /\
    d * qsum (map (fun p => fst p / snd p) (combine w rho)) = 1 /\
    exists M, molarmass_from_wfrac w MM = Ok M /\ M = qsum (map (fun p => fst p * snd p) (combine n MM)).
Proof. exact (densities w rho MM). Qed.
Print Assumptions C26_densities.
Example C26_example : let w := [Q2Qc (1 # 4); Q2Qc (3 # 4)] in
  valid w [1; Qc_of_Z 3] [Qc_of_Z 18; Qc_of_Z 58] /\ qsum w = 1 /\ density_from_massfrac w [1; Qc_of_Z 3] = Ok (Qc_of_Z 2).
Proof. cbv zeta. split; [repeat split; repeat constructor; discriminate|]. split; [apply Qc_is_canon; vm_compute; reflexivity|]. vm_compute. reflexivity. Qed.

(* C27: adding fractions *)
Theorem C27_add_frac x new :
  (qsum new <= 1 -> exists y, add_frac x new = Ok y /\ length y = (length x + length new)%nat /\ qsum y = qsum x /\
    (forall i, (i < length x)%nat -> nth i y 0 = (1 - qsum new) * nth i x 0) /\
    (forall j, (j < length new)%nat -> nth (length x + j) y 0 = nth j new 0 * qsum x)) /\
  (1 < qsum new -> add_frac x new = Err ValueError).
Proof. exact (add_frac_spec x new). Qed.
Print Assumptions C27_add_frac.
(* adding compounds, of any kind of fraction: each compound has its share of the new ones
   and the old ones keep their proportions *)
Theorem C27_addcompounds T m new k : real_mixture T m -> identified (map fst m ++ map fst new) -> nonneg (map snd new) -> total new <= 1 ->
  (forall p, In p new -> real_compound T (fst p)) ->
  exists F0 m' F, fractions_of T m k = Ok F0 /\ addcompounds T m (map fst new) (map snd new) k = Ok m' /\ real_mixture T m' /\ fractions_of T m' k = Ok F /\
    total F = 1 /\ forall c, share compound_eqb c F = (1 - total new) * share compound_eqb c F0 + share compound_eqb c new.
Proof. exact (added T m new k). Qed.
Print Assumptions C27_addcompounds.
Theorem C27_addelements T c new k density : k <> Volume -> real_compound T c -> nonneg (map snd new) -> total new <= 1 -> (forall p, In p new -> 0 < emass T (fst p)) ->
  exists F0 c' F, cfractions T c k = Ok F0 /\ addelements T c (map fst new) (map snd new) k density = Ok c' /\ cfractions T c' k = Ok F /\
    total F = 1 /\ no_repeats Nat.eqb (map fst F) /\ cname c' = cname c /\ (forall e, share Nat.eqb e F = (1 - total new) * share Nat.eqb e F0 + share Nat.eqb e new).
Proof. exact (elements_added T c new k density). Qed.
Print Assumptions C27_addelements.
Theorem C27_refused T m cs fr k : real_mixture T m -> 1 < qsum fr -> addcompounds T m cs fr k = Err ValueError.
Proof. exact (add_too_much T m cs fr k). Qed.
Print Assumptions C27_refused.
Theorem C27_elements_refused T c els fr k density : real_compound T c -> 1 < qsum fr \/ k = Volume -> addelements T c els fr k density = Err ValueError.
Proof. exact (elements_refused T c els fr k density). Qed.
Print Assumptions C27_elements_refused.
Example C27_example : real_mixture ex_T ex_brine /\
  identified (map fst ex_brine ++ map fst [(ex_salt, Q2Qc (1 # 4)); (ex_water, 0)]) /\ total [(ex_salt, Q2Qc (1 # 4)); (ex_water, 0)] <= 1.
Proof.
  split; [|split; [|discriminate]].
  - split; [repeat constructor|]. split; [repeat constructor; discriminate|]. split; [reflexivity|].
    intros p [<-|[<-|[]]]; (split; [repeat constructor|split; [repeat constructor; discriminate|split; [reflexivity|split; [reflexivity|]]]]);
      intros q [<-|[<-|[]]]; reflexivity.
  - intros a b [<-|[<-|[<-|[<-|[]]]]] [<-|[<-|[<-|[<-|[]]]]]; cbn [fst ex_salt ex_water cname]; try reflexivity; discriminate.
Qed.

(* C28: the composition of a mixture *)
Theorem C28_fractions T d k : identified (map fst d) -> nonneg (map snd d) -> 0 < total d -> (forall p, In p d -> real_compound T (fst p)) ->
  exists m, new_mixture T (map fst d) (map snd d) k = Ok m /\ real_mixture T m /\ (forall p, In p m -> In (fst p) (map fst d)) /\
  exists F, fractions_of T m k = Ok F /\ map fst F = map fst m /\ total F = 1 /\ forall c, share compound_eqb c F = share compound_eqb c d / total d.
Proof. exact (mixture_of T d k). Qed.
Print Assumptions C28_fractions.
Theorem C28_listed_twice T c a b d k : 0 <= a -> 0 <= b -> nonneg (map snd d) -> 0 < a + b + total d -> real_compound T c -> (forall p, In p d -> real_compound T (fst p)) ->
  new_mixture T (c :: c :: map fst d) (a :: b :: map snd d) k = new_mixture T (c :: map fst d) ((a + b) :: map snd d) k.
Proof. exact (listed_twice T c a b d k). Qed.
Print Assumptions C28_listed_twice.
(* mass fractions of the elements: the mass of the element over the total mass, which is
   the sum over the compounds weighted with their mass fractions *)
Theorem C28_massfractions T m : real_mixture T m -> exists W F, fractions_of T m Mass = Ok W /\ elemental_massfractions T m = Ok F /\
  no_repeats Nat.eqb (map fst F) /\ total F = 1 /\ 0 < total_mass T m /\
  (forall e, share Nat.eqb e F = element_mass T e m / total_mass T m) /\
  (forall e, share Nat.eqb e F = qsum (map (fun p => snd p * match cmassfractions T (fst p) with Ok f => share Nat.eqb e f | Err _ => 0 end) W)).
Proof. exact (elemental_masses T m). Qed.
Print Assumptions C28_massfractions.
(* the mixture as one compound: the same density (mass over volume), molar mass and mass
   fractions *)
Theorem C28_tocompound T name m : real_mixture T m -> exists c d, tocompound T name m = Ok c /\ real_compound T c /\ cname c = name /\
  mdensity T m = Ok d /\ cdensity c = d /\
  d * qsum (map (fun p => snd p * molarmass T (fst p) / cdensity (fst p)) m) = total_mass T m /\
  molarmass T c = mmolarmass T m /\ mmolarmass T m = total_mass T m /\
  exists F F', elemental_massfractions T m = Ok F /\ cmassfractions T c = Ok F' /\ forall e, share Nat.eqb e F = share Nat.eqb e F'.
Proof. exact (collapsed T name m). Qed.
Print Assumptions C28_tocompound.
(* a new compound has the fractions asked for *)
Theorem C28_compound T name d k density : k <> Volume -> nonneg (map snd d) -> 0 < total d -> (forall p, In p d -> 0 < emass T (fst p)) ->
  density <> Some 0 -> density <> None -> (forall q, density = Some q -> 0 < q) ->
  exists c F, new_compound T name (map fst d) (map snd d) k density = Ok c /\ real_compound T c /\ density = Some (cdensity c) /\
    cfractions T c k = Ok F /\ total F = 1 /\ forall e, share Nat.eqb e F = share Nat.eqb e d / total d.
Proof. exact (new_compound_is T name d k density). Qed.
Print Assumptions C28_compound.
Example C28_example : match elemental_massfractions ex_T ex_brine with
  | Ok F => map (fun p => (fst p, this (snd p))) F = [(1%nat, 1 # 38); (8%nat, 4 # 19); (11%nat, 23 # 76); (17%nat, 35 # 76)]%Q
  | Err _ => False end.
Proof. vm_compute. reflexivity. Qed.
(* the mole fractions of the elements are not those of the mixture: the atoms of each
   compound count as one *)
Theorem C28_molefractions_refuted : exists T name m c F F' e, real_mixture T m /\ tocompound T name m = Ok c /\
  elemental_molefractions T m = Ok F /\ cmolefractions c = Ok F' /\ share Nat.eqb e F <> share Nat.eqb e F'.
Proof. exact molefractions_differ. Qed.
Print Assumptions C28_molefractions_refuted.

(* C60: setting the fraction of some of the compounds of a mixture never succeeds *)
Theorem C60_setfraction_refuted T m cs v k : real_mixture T m -> (forall c, In c cs -> exists p, In p m /\ cname (fst p) = cname c) ->
  (exists p, In p m /\ forall c, In c cs -> cname c <> cname (fst p)) -> no_repeats compound_eqb cs -> setfraction T m cs v k = Err TypeError.
Proof. exact (setfraction_fails T m cs v k). Qed.
Print Assumptions C60_setfraction_refuted.
Example C60_example : setfraction ex_T ex_brine [ex_water] [Q2Qc (1 # 2)] Mass = Err TypeError.
Proof. reflexivity. Qed.
