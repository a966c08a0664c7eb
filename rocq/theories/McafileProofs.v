From Verif Require Import BaseProofs McafileModel McafileSpec.
From Coq Require Import Lia.
Local Open Scope list_scope.
Local Open Scope nat_scope.

Lemma scan_line l t : scan_numbers (map Num l ++ t) = match scan_numbers t with Some (l', r) => Some (l ++ l', r) | None => None end.
Proof. induction l as [|x l IH]; cbn [map app scan_numbers]; [destruct (scan_numbers t) as [[? ?]|]; reflexivity|]. rewrite IH. destruct (scan_numbers t) as [[? ?]|]; reflexivity. Qed.
Lemma chunks_layout : forall fuel data, List.length data <= fuel -> data <> [] -> exists full last, data = List.concat full ++ last /\ Forall (fun l => List.length l = 16) full /\ 1 <= List.length last <= 16 /\
  chunks fuel data = flat_map (fun l => map Num l ++ [Cont; Newline]) full ++ map Num last ++ [Newline].
Proof.
  induction fuel as [|fuel IH]; intros data L N; [destruct data; [congruence|cbn in L; lia]|]. destruct data as [|x0 data0]; [congruence|]. set (data := x0 :: data0) in *. assert (chunks (S fuel) data = if 16 <=? List.length data then
        map Num (firstn 16 data) ++ (if List.length data =? 16 then [] else [Cont]) ++ [Newline] ++ chunks fuel (skipn 16 data)
      else map Num data ++ [Newline]) as E by reflexivity. rewrite E. clear E. assert (1 <= List.length data) as L1 by (cbn; lia). clearbody data. destruct (16 <=? List.length data) eqn:Q.
  - apply Nat.leb_le in Q. destruct (List.length data =? 16) eqn:Q2.
    + apply Nat.eqb_eq in Q2. exists [], data. split; [reflexivity|]. split; [constructor|]. split; [lia|]. cbn [flat_map]. rewrite firstn_all2 by lia. rewrite skipn_all2 by lia. destruct fuel; reflexivity.
    + apply Nat.eqb_neq in Q2. assert (List.length (skipn 16 data) = List.length data - 16) as LS by apply skipn_length. destruct (IH (skipn 16 data)) as (full & last & E1 & E2 & E3 & E4); [lia|intros X; rewrite X in LS; cbn [List.length] in LS; lia|].
      exists (firstn 16 data :: full), last. cbn [List.concat flat_map]. split; [rewrite <- app_assoc, <- E1; symmetry; apply firstn_skipn|]. split; [constructor; [rewrite firstn_length; lia|exact E2]|]. split; [exact E3|]. rewrite E4, <- !app_assoc. reflexivity.
  - apply Nat.leb_gt in Q. exists [], data. split; [reflexivity|]. split; [constructor|]. split; [lia|reflexivity].
Qed.
Theorem layout data : data <> [] -> exists full last, data = List.concat full ++ last /\ Forall (fun l => List.length l = 16) full /\ 1 <= List.length last <= 16 /\
  spec_mca data = Start :: flat_map (fun l => map Num l ++ [Cont; Newline]) full ++ map Num last ++ [Newline].
Proof. intros N. destruct (chunks_layout (List.length data) data (le_n _) N) as (full & last & A & B & C & E). exists full, last. unfold spec_mca. rewrite E. auto. Qed.
Theorem scanned data rest : data <> [] -> scan_mca (spec_mca data ++ rest) = Some (data, rest).
Proof.
  intros N. destruct (layout data N) as (full & last & A & _ & _ & E). rewrite E. cbn [app scan_mca]. rewrite <- !app_assoc. subst data. clear. induction full as [|l full IH]; cbn [flat_map List.concat app].
  - rewrite scan_line. cbn [app scan_numbers]. now rewrite app_nil_r.
  - rewrite <- !app_assoc. rewrite scan_line. cbn [app scan_numbers] in *. rewrite IH. reflexivity.
Qed.
Theorem scanned_saved data zero gain ch0 ch1 rest : exists rest', scan_mca (snd (save data zero gain ch0 ch1) ++ rest) = Some (data, rest').
Proof.
  unfold save. cbn [snd]. destruct data as [|x data]; [exists rest; reflexivity|]. exists (Newline :: rest). rewrite <- app_assoc. apply scanned. discriminate.
Qed.
Theorem saved_channels data zero gain ch0 : exists a b, In (Chann [Z.of_nat (List.length data); a; b; 1%Z]) (fst (save data zero gain ch0 None)) /\ (b - a + 1 = Z.of_nat (List.length data))%Z /\ (ch0 = None -> a = 0%Z) /\ (forall c, ch0 = Some c -> a = c).
Proof.
  set (a := match ch0 with Some c => c | None => 0%Z end). exists a, (a + Z.of_nat (List.length data) - 1)%Z. split; [|split; [lia|split; [intros ->; reflexivity|intros c ->; reflexivity]]].
  unfold save. cbn [fst In]. fold a. do 5 right. left. f_equal. f_equal. lia.
Qed.
Lemma header_scalar : forall h c ch r ch', (exists l, c = Scalar l) \/ (exists l, In (Calib l) h) -> read_header h c ch = Ok (r, ch') -> exists l, r = Scalar l.
Proof.
  induction h as [|x h IH]; intros c ch r ch' H E.
  - cbn in E. assert (c = r) as -> by congruence. destruct H as [H|(l & [])]. exact H.
  - destruct x as [l|l|]; cbn [read_header] in E.
    + destruct l as [|? [|c0 [|c1 [|? [|? ?]]]]]; try discriminate. apply (IH _ _ _ _) with (2 := E). destruct H as [H|(l & [H|H])]; [auto|discriminate|eauto].
    + apply (IH _ _ _ _) with (2 := E). left. eauto.
    + apply (IH _ _ _ _) with (2 := E). destruct H as [H|(l & [H|H])]; [auto|discriminate|eauto].
Qed.
Lemma header_err : forall h c ch e, read_header h c ch = Err e -> e = ValueError.
Proof. induction h as [|x h IH]; intros c ch e E; [discriminate|]. destruct x as [l|l|]; cbn [read_header] in E; [|eauto|eauto]. destruct l as [|? [|c0 [|c1 [|? [|? ?]]]]]; try congruence. eauto. Qed.
Theorem calibrated mca h l : In (Calib l) h -> read mca h = Err TypeError \/ read mca h = Err ValueError.
Proof.
  intros H. unfold read. destruct (read_header h _ _) as [[c ch]|e] eqn:E; cbn [bind]; [|apply header_err in E; subst e; now right]. apply header_scalar in E as (l' & ->); [now left|]. right. eauto.
Qed.
Theorem saved_unreadable data zero gain ch0 ch1 mca : read mca (fst (save data zero gain ch0 ch1)) = Err TypeError.
Proof. reflexivity. Qed.
Lemma energy_default c : energy_of [0%Qc; 1%Qc] c = Qc_of_Z c.
Proof. unfold energy_of. cbn [List.length seq combine map fold_left fst snd Qcpower]. ring. Qed.
Lemma arange_length a b : List.length (arange a b) = Z.to_nat (b - a).
Proof. unfold arange. now rewrite map_length, seq_length. Qed.
Lemma arange_nth a b i : i < Z.to_nat (b - a) -> nth_error (arange a b) i = Some (a + Z.of_nat i)%Z.
Proof. intros H. unfold arange. rewrite nth_error_map. rewrite (nth_error_nth' _ 0) by (rewrite seq_length; exact H). rewrite seq_nth by exact H. reflexivity. Qed.
Theorem uncalibrated x mca n c0 c1 f : exists mca' channels energy, read (x :: mca) [Chann [n; c0; c1; f]] = Ok (mca', channels, energy, [0%Qc; 1%Qc]) /\ mca' = x :: mca ++ [0%Qc] /\ energy = map Qc_of_Z channels /\
  (c0 <> c1 -> List.length channels = Z.to_nat (c1 + 1 - c0) /\ forall i, i < List.length channels -> nth_error channels i = Some (c0 + Z.of_nat i)%Z) /\
  (c0 = c1 -> List.length channels = List.length mca' /\ forall i, i < List.length channels -> nth_error channels i = Some (Z.of_nat i)).
Proof.
  unfold read. cbn [read_header bind fst snd app]. eexists _, _, _. split; [reflexivity|]. split; [reflexivity|]. split; [apply map_ext; apply energy_default|]. split.
  - intros N. apply Z.eqb_neq in N. rewrite N. cbn [fst snd]. rewrite arange_length. split; [reflexivity|]. intros i I. now apply arange_nth.
  - intros ->. rewrite Z.eqb_refl. cbn [fst snd]. rewrite arange_length. split; [cbn [List.length]; lia|]. intros i I. now rewrite arange_nth.
Qed.
Theorem bad_channels mca l : List.length l <> 4 -> read mca [Chann l] = Err ValueError.
Proof. intros H. unfold read. cbn [read_header]. destruct l as [|? [|? [|? [|? [|? ?]]]]]; try reflexivity. cbn in H. lia. Qed.
