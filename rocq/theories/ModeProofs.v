(* Proofs about opening modes. *)
From Verif Require Import ModeSpec.

Ltac mode m := destruct m; cbn in *; try discriminate; try (intuition discriminate); auto.

(* ---- the table ---- *)
Lemma effective_local d a : local_mode d -> local_mode (effective d a).
Proof. unfold local_mode. cbn. intros [E|[E|[E|[E|[E|[E|[E|[E|[]]]]]]]]]; subst d; destruct a as [[]|]; cbn; tauto. Qed.
Lemma effective_choice d a : effective d a = d \/ Some (effective d a) = a.
Proof. destruct a as [m|]; [|left; destruct d; reflexivity]. destruct d, m; cbn; auto. Qed.
Lemma effective_default d : effective d None = d.
Proof. destruct d; reflexivity. Qed.
Lemma effective_other d : local_mode d -> effective d (Some MOther) = d /\ effective d (Some MWM) = d.
Proof. unfold local_mode. cbn. intros [E|[E|[E|[E|[E|[E|[E|[E|[]]]]]]]]]; subst d; now split. Qed.
Lemma effective_r a : effective MR a = MR.
Proof. destruct a as [[]|]; reflexivity. Qed.
Lemma effective_rp a : ~ may_create (effective MRP a).
Proof. destruct a as [[]|]; cbn; intuition discriminate. Qed.
Lemma effective_a d a : at_end d -> ~ may_truncate (effective d a) /\ ~ needs_new (effective d a).
Proof. unfold at_end. cbn. intros [E|[E|[]]]; subst d; destruct a as [[]|]; cbn; intuition discriminate. Qed.
Lemma effective_x d a : needs_new d -> a <> Some MW -> a <> Some MWP -> effective d a = d.
Proof. unfold needs_new. cbn. intros [E|[E|[]]] A B; subst d; destruct a as [[]|]; cbn; congruence. Qed.
Lemma effective_w d a : may_truncate d -> effective d a <> MR -> may_truncate (effective d a).
Proof. unfold may_truncate. cbn. intros [E|[E|[]]] A; subst d; destruct a as [[]|]; cbn in *; intuition congruence. Qed.

(* ---- the file system ---- *)
Lemma put_same f n x : f_node (put f n x) n = x.
Proof. cbn. now rewrite Nat.eqb_refl. Qed.
Lemma put_other f n x k : k <> n -> f_node (put f n x) k = f_node f k.
Proof. cbn. intros N. apply Nat.eqb_neq in N. now rewrite N. Qed.
Lemma follow_end k f : forall n t, follow k f n = inl t -> (exists w, f_parent f t = POk w) /\ forall s, f_node f t <> Link s.
Proof.
  induction k as [|k IH]; intros n t; cbn [follow]; destruct (f_parent f n) eqn:P; try discriminate;
    destruct (f_node f n) eqn:N; try discriminate; try (now apply IH);
    intros [= <-]; (split; [now exists writable|congruence]).
Qed.
Lemma only_refl f t : only_changes f f t.
Proof. now split. Qed.
Lemma only_trans f g h t : only_changes f g t -> only_changes g h t -> only_changes f h t.
Proof. intros [A B] [A' B']. split; [congruence|]. intros k N. rewrite B', B; auto. Qed.
Lemma only_put f t x : only_changes f (put f t x) t.
Proof. split; [reflexivity|]. intros k. apply put_other. Qed.
Lemma block_only l : forall f h f' out s, block f h l = (f', out, s) ->
  only_changes f f' (h_file h) /\ (writes (h_mode h) = false -> f' = f) /\
  (forall c r w, f_node f (h_file h) = File c r w -> exists c', f_node f' (h_file h) = File c' r w).
Proof.
  induction l as [|o l IH]; intros f h f' out s; cbn [block].
  - intros [= <- <- <-]. split; [apply only_refl|]. split; [reflexivity|]. intros c r w E. now exists c.
  - destruct (f_node f (h_file h)) as [|c r w| |t] eqn:N; try (intros [= <- <- <-]; split; [apply only_refl|]; split; [reflexivity|congruence]).
    destruct o as [|d| |e|x].
    + destruct (reads (h_mode h)).
      * destruct (block f _ l) as [[f1 o1] s1] eqn:E. intros [= <- <- <-]. destruct (IH _ _ _ _ _ E) as (A & B & C).
        split; [exact A|]. split; [exact B|]. intros c0 r0 w0 H. rewrite <- N in H. apply (C c0). exact H || (cbn; congruence).
      * intros [= <- <- <-]. split; [apply only_refl|]. split; [reflexivity|]. intros c0 r0 w0 H. exists c0. congruence.
    + destruct (writes (h_mode h)) eqn:W.
      * intros E. destruct (IH _ _ _ _ _ E) as (A & B & C). cbn [h_file h_mode] in *. split.
        { apply (only_trans _ _ _ _ (only_put _ _ _) A). }
        split; [discriminate|]. intros c0 r0 w0 [= <- <- <-]. eapply C. apply put_same.
      * intros [= <- <- <-]. split; [apply only_refl|]. split; [reflexivity|]. intros c0 r0 w0 H. exists c0. congruence.
    + intros E. destruct (IH _ _ _ _ _ E) as (A & B & C). split; [exact A|]. split; [exact B|].
      intros c0 r0 w0 H. apply (C c0). cbn [h_file]. congruence.
    + intros [= <- <- <-]. split; [apply only_refl|]. split; [reflexivity|]. intros c0 r0 w0 H. exists c0. congruence.
    + intros [= <- <- <-]. split; [apply only_refl|]. split; [reflexivity|]. intros c0 r0 w0 H. exists c0. congruence.
Qed.
(* the file that is opened *)
Definition target (f : fsys) (n : name) (m : fmode) : name :=
  if exclusive m then n else match follow max_links f n with inl t => t | inr _ => n end.
Lemma make_spec f n m f1 h : make f n m = inl (f1, h) ->
  f1 = put f n (File [] true true) /\ h = mkHandle n 0 m.
Proof. unfold make. destruct (f_parent f n) as [[|]| |]; try discriminate. now intros [= <- <-]. Qed.
Lemma os_open_spec f n m f1 h : os_open f n m = inl (f1, h) ->
  let t := target f n m in
  h_file h = t /\ h_mode h = m /\ only_changes f f1 t /\
  ((f_node f t = Absent /\ creates m = true /\ f_node f1 t = File [] true true /\ h_pos h = 0%nat) \/
   exists c r w, f_node f t = File c r w /\ exclusive m = false /\
     f_node f1 t = File (if truncates m then [] else c) r w /\
     h_pos h = (if appends m then length c else 0)%nat /\ (truncates m = false -> f1 = f)).
Proof.
  unfold os_open, target. destruct (exclusive m) eqn:X.
  - destruct (f_parent f n); try discriminate. destruct (f_node f n) eqn:N; try discriminate.
    intros H. apply make_spec in H as [-> ->]. cbn [h_file h_mode h_pos]. split; [reflexivity|]. split; [reflexivity|].
    split; [apply only_put|]. left. split; [reflexivity || exact N|]. split; [destruct m; now cbn in *|]. split; [apply put_same|reflexivity].
  - destruct (follow max_links f n) as [t|e]; [|discriminate]. destruct (f_node f t) as [|c r w| |s] eqn:N; try discriminate.
    + destruct (creates m) eqn:C; [|discriminate]. intros H. apply make_spec in H as [-> ->]. cbn [h_file h_mode h_pos].
      split; [reflexivity|]. split; [reflexivity|]. split; [apply only_put|]. left.
      split; [reflexivity || exact N|]. split; [reflexivity|]. split; [apply put_same|reflexivity].
    + destruct ((reads m && negb r) || (writes m && negb w))%bool; [discriminate|]. destruct (truncates m) eqn:T; intros [= <- <-]; cbn [h_file h_mode h_pos].
      * split; [reflexivity|]. split; [reflexivity|]. split; [apply only_put|]. right. exists c, r, w.
        split; [reflexivity || exact N|]. split; [reflexivity|]. split; [apply put_same|]. split; [now destruct m|discriminate].
      * split; [reflexivity|]. split; [reflexivity|]. split; [apply only_refl|]. right. exists c, r, w.
        split; [reflexivity || exact N|]. split; [reflexivity|]. split; [reflexivity || exact N|]. split; reflexivity.
Qed.

(* nothing else is changed *)
Lemma fopen_only f n m l f' out r : fopen f n m l = (f', out, r) -> only_changes f f' (target f n m).
Proof.
  unfold fopen. destruct (os_open f n m) as [[f1 h]|e] eqn:E.
  - destruct (os_open_spec _ _ _ _ _ E) as (A & B & C & _). destruct (block f1 h l) as [[f2 o] s] eqn:Bl. intros [= <- <- <-].
    destruct (block_only _ _ _ _ _ _ Bl) as (D & _). rewrite A in D. now apply (only_trans _ f1).
  - intros [= <- <- <-]. apply only_refl.
Qed.
Lemma fopen_r f n l f' out r : fopen f n MR l = (f', out, r) -> f' = f.
Proof.
  unfold fopen. destruct (os_open f n MR) as [[f1 h]|e] eqn:E.
  - destruct (os_open_spec _ _ _ _ _ E) as (A & B & C & [(_ & Q & _)|(c & r0 & w & _ & _ & _ & _ & Q)]); [discriminate|].
    rewrite (Q eq_refl) in *. destruct (block f h l) as [[f2 o] s] eqn:Bl. intros [= <- <- <-].
    destruct (block_only _ _ _ _ _ _ Bl) as (_ & D & _). apply D. now rewrite B.
  - now intros [= <- <- <-].
Qed.
Lemma readonly f n d a l f' out r : d = MR \/ (a = Some MR /\ ~ needs_new d) -> path_open f n d a l = (f', out, r) -> f' = f.
Proof.
  unfold path_open. destruct (local_valid d) eqn:V; [|now intros _ [= <- <- <-]]. intros D.
  replace (effective d a) with MR.
  - apply fopen_r.
  - destruct D as [->|[-> N]]; [now rewrite effective_r|]. destruct d; try reflexivity; cbn in *; try discriminate V;
      exfalso; apply N; cbn; auto.
Qed.
Lemma fopen_no_new f n m l f' out r : ~ may_create m -> local_mode m -> fopen f n m l = (f', out, r) ->
  forall k, f_node f' k = Absent <-> f_node f k = Absent.
Proof.
  intros Nc Lm H k. unfold fopen in H. assert (Cr : creates m = false) by (unfold may_create, local_mode in *; destruct m; cbn in *; intuition discriminate || reflexivity || (exfalso; intuition)).
  destruct (os_open f n m) as [[f1 h]|e] eqn:E.
  - destruct (os_open_spec _ _ _ _ _ E) as (A & B & C & [(_ & Q & _)|(c & r0 & w & N & _ & N1 & _)]); [congruence|].
    destruct (block f1 h l) as [[f2 o] s] eqn:Bl. injection H as <- <- <-.
    destruct (block_only _ _ _ _ _ _ Bl) as (D & _ & F). rewrite A in D, F. destruct (F _ _ _ N1) as (c' & Nf).
    destruct (Nat.eq_dec k (target f n m)) as [->|K].
    + rewrite Nf, N. split; discriminate.
    + destruct D as [_ D], C as [_ C]. now rewrite D, C.
  - now injection H as <- <- <-.
Qed.

(* ---- errors ---- *)
Lemma fopen_exclusive f n m l : needs_new m -> f_node f n <> Absent -> (exists w, f_parent f n = POk w) ->
  fopen f n m l = (f, [], Some (if isfile f n then Os EEXIST else NotAFile)).
Proof.
  intros M N (w & P). unfold fopen, os_open. replace (exclusive m) with true by (unfold needs_new in M; cbn in M; destruct M as [<-|[<-|[]]]; reflexivity).
  rewrite P. destruct (f_node f n); [congruence| | |]; reflexivity.
Qed.
Lemma fopen_missing f n m l t : ~ may_create m -> local_mode m -> follow max_links f n = inl t -> f_node f t = Absent ->
  fopen f n m l = (f, [], Some Missing).
Proof.
  intros Nc Lm F N. unfold fopen, os_open. 
  assert (Q : exclusive m = false /\ creates m = false) by (unfold may_create, local_mode in *; destruct m; cbn in *; intuition).
  destruct Q as [-> ->]. now rewrite F, N.
Qed.
Lemma fopen_dir f n m l t : local_mode m -> follow max_links f n = inl t -> f_node f t = Dir ->
  fopen f n m l = (f, [], Some NotAFile).
Proof.
  intros Lm F N. unfold fopen, os_open. destruct (exclusive m).
  - pose proof F as F'. unfold max_links in F'. cbn [follow] in F'. destruct (f_parent f n); try discriminate.
    assert (isfile f n = false) as I by (unfold isfile; now rewrite F, N).
    destruct (f_node f n) eqn:Nn; try (cbn; now rewrite I). exfalso. injection F' as <-. congruence.
  - now rewrite F, N.
Qed.
Lemma fopen_no_parent f n m l : f_parent f n = PMissing -> fopen f n m l = (f, [], Some Missing).
Proof.
  intros P. unfold fopen, os_open. rewrite P. destruct (exclusive m); [reflexivity|].
  unfold max_links. cbn [follow]. now rewrite P.
Qed.
Lemma fopen_parent_file f n m l : f_parent f n = PNotDir -> fopen f n m l = (f, [], Some NotAFile).
Proof.
  intros P. assert (F : follow max_links f n = inr ENOTDIR) by (unfold max_links; cbn [follow]; now rewrite P).
  unfold fopen, os_open. rewrite P, F. assert (isfile f n = false) as I by (unfold isfile; now rewrite F).
  destruct (exclusive m); cbn; now rewrite I.
Qed.
Lemma fopen_denied f n m l t c r w : ~ needs_new m -> local_mode m -> follow max_links f n = inl t -> f_node f t = File c r w ->
  (reads m = true /\ r = false) \/ (writes m = true /\ w = false) ->
  fopen f n m l = (f, [], Some (Os EACCES)).
Proof.
  intros Nx Lm F N D. unfold fopen, os_open. assert (X : exclusive m = false) by (unfold needs_new, local_mode in *; destruct m; cbn in *; intuition).
  rewrite X, F, N. replace ((reads m && negb r) || (writes m && negb w))%bool with true.
  - cbn. unfold isfile. now rewrite F, N.
  - symmetry. apply orb_true_iff. destruct D as [[-> ->]|[-> ->]]; cbn; auto.
Qed.

(* ---- content ---- *)
Lemma skipn_add {A} a : forall b (l : list A), skipn b (skipn a l) = skipn (a + b) l.
Proof. induction a as [|a IH]; intros b l; [reflexivity|]. destruct l; [now rewrite !skipn_nil|]. apply IH. Qed.
Lemma firstn_skip_over (c d : list ascii) p : (p <= length c)%nat ->
  firstn (p + length d) (firstn p c ++ d ++ skipn (p + length d) c) = firstn p c ++ d /\
  forall q, skipn (p + length d + q) (firstn p c ++ d ++ skipn (p + length d) c) = skipn (p + length d + q) c.
Proof.
  intros L. assert (Lf : length (firstn p c) = p) by (apply firstn_length_le; exact L). split.
  - rewrite app_assoc. rewrite firstn_app. rewrite app_length, Lf, Nat.sub_diag. cbn [firstn]. rewrite app_nil_r.
    apply firstn_all2. rewrite app_length. lia.
  - intros q. rewrite app_assoc. rewrite skipn_app. rewrite app_length, Lf.
    rewrite (skipn_all2 (firstn p c ++ d)) by (rewrite app_length; lia). cbn [app].
    replace (p + length d + q - (p + length d))%nat with q by lia. apply skipn_add.
Qed.
Lemma block_writes ds : forall f h c r w, f_node f (h_file h) = File c r w -> writes (h_mode h) = true ->
  (h_pos h <= length c)%nat ->
  exists f', block f h (map Write ds) = (f', [], NoStop) /\ only_changes f f' (h_file h) /\
    f_node f' (h_file h) = File (if appends (h_mode h) then c ++ concat ds
       else firstn (h_pos h) c ++ concat ds ++ skipn (h_pos h + length (concat ds)) c) r w.
Proof.
  induction ds as [|d ds IH]; intros f h c r w N W L.
  - exists f. split; [reflexivity|]. split; [apply only_refl|]. cbn [concat length app]. rewrite N, app_nil_r, Nat.add_0_r, firstn_skipn. now destruct (appends (h_mode h)).
  - cbn [map block]. rewrite N, W. cbn [concat].
    set (at_ := if appends (h_mode h) then length c else h_pos h).
    assert (La : (at_ <= length c)%nat) by (unfold at_; destruct (appends (h_mode h)); lia).
    set (c1 := firstn at_ c ++ d ++ skipn (at_ + length d) c).
    destruct (IH (put f (h_file h) (File c1 r w)) (mkHandle (h_file h) (at_ + length d) (h_mode h)) c1 r w) as (f' & E & O & Q).
    + apply put_same.
    + exact W.
    + cbn [h_pos]. unfold c1. rewrite !app_length, firstn_length_le by exact La. lia.
    + cbn [h_file h_mode h_pos] in *. exists f'. split; [exact E|]. split; [apply (only_trans _ _ _ _ (only_put _ _ _) O)|].
      rewrite Q. f_equal. unfold at_ in *. destruct (appends (h_mode h)).
      * unfold c1. rewrite firstn_all, skipn_all2 by lia. rewrite app_nil_r, <- app_assoc. reflexivity.
      * destruct (firstn_skip_over c d (h_pos h) La) as [A B]. fold c1 in A, B. rewrite A, B.
        rewrite <- !app_assoc. do 3 f_equal. rewrite app_length. f_equal. lia.
Qed.
Lemma fopen_file f n m t c r w ds : local_mode m -> ~ needs_new m -> writes m = true ->
  follow max_links f n = inl t -> f_node f t = File c r w -> (reads m = true -> r = true) -> w = true ->
  exists f', fopen f n m (map Write ds) = (f', [], None) /\ only_changes f f' t /\
    f_node f' t = File (match m with
                        | MW | MWP => concat ds
                        | MRP => over c (concat ds)
                        | _ => c ++ concat ds
                        end) r w.
Proof.
  intros Lm Nx W F N R ->. assert (X : exclusive m = false) by (unfold needs_new, local_mode in *; destruct m; cbn in *; intuition).
  unfold fopen. destruct (os_open f n m) as [[f1 h]|e] eqn:E.
  - destruct (os_open_spec _ _ _ _ _ E) as (A & B & C & D). assert (T : target f n m = t) by (unfold target; now rewrite X, F).
    rewrite T in *. destruct D as [(D & _)|(c0 & r0 & w0 & D & _ & N1 & P & _)]; [congruence|].
    rewrite N in D. injection D as <- <- <-. rewrite <- A in N1.
    destruct (block_writes ds f1 h _ _ _ N1) as (f' & Bl & O & Q).
    + now rewrite B.
    + rewrite P. destruct m; cbn; lia.
    + exists f'. rewrite Bl. split; [reflexivity|]. rewrite A in O, Q. split; [apply (only_trans _ f1); assumption|].
      rewrite Q, B, P. f_equal. unfold local_mode in Lm. destruct m; try discriminate W; try discriminate X; cbn; try reflexivity.
      * now rewrite skipn_nil, app_nil_r.
      * now rewrite skipn_nil, app_nil_r.
  - exfalso. unfold os_open in E. rewrite X, F, N in E. rewrite andb_false_r, orb_false_r in E.
    destruct (reads m) eqn:Rd; [rewrite (R eq_refl) in E|]; cbn [andb negb] in E; destruct (truncates m); discriminate.
Qed.
Lemma fopen_new f n m t ds : local_mode m -> may_create m ->
  (needs_new m -> t = n) -> follow max_links f n = inl t -> f_node f t = Absent -> f_parent f t = POk true ->
  exists f', fopen f n m (map Write ds) = (f', [], None) /\ only_changes f f' t /\
    f_node f' t = File (concat ds) true true.
Proof.
  intros Lm Mc Tn F N P. unfold fopen.
  assert (E : os_open f n m = inl (put f t (File [] true true), mkHandle t 0 m)).
  { unfold os_open. destruct (exclusive m) eqn:X.
    - assert (t = n) as -> by (apply Tn; destruct m; try discriminate X; cbn; auto).
      rewrite P, N. unfold make. now rewrite P.
    - rewrite F, N. replace (creates m) with true by (unfold may_create in Mc; cbn in Mc; destruct m; intuition discriminate || reflexivity).
      unfold make. now rewrite P. }
  rewrite E. destruct (block_writes ds (put f t (File [] true true)) (mkHandle t 0 m) [] true true) as (f' & Bl & O & Q).
  - apply put_same.
  - unfold may_create in Mc; cbn in Mc. destruct m; intuition discriminate || reflexivity.
  - cbn. lia.
  - exists f'. rewrite Bl. split; [reflexivity|]. cbn [h_file h_pos h_mode] in *. split; [apply (only_trans _ _ _ _ (only_put _ _ _) O)|].
    rewrite Q. cbn [firstn app]. rewrite skipn_nil, app_nil_r. now destruct (appends m).
Qed.
Lemma fopen_update f n m t c r w : local_mode m -> ~ needs_new m -> ~ may_truncate m ->
  follow max_links f n = inl t -> f_node f t = File c r w -> (reads m = true -> r = true) -> (writes m = true -> w = true) ->
  fopen f n m [] = (f, [], None) /\
  (m = MR \/ m = MRP -> fopen f n m [Read] = (f, [c], None)) /\
  (m = MAP -> fopen f n m [Read] = (f, [[]], None) /\ fopen f n m [Rewind; Read] = (f, [c], None)).
Proof.
  intros Lm Nx Nt F N R W. 
  assert (X : exclusive m = false) by (unfold needs_new, local_mode in *; destruct m; cbn in *; intuition).
  assert (T : truncates m = false) by (unfold may_truncate, local_mode in *; destruct m; cbn in *; intuition).
  assert (E : os_open f n m = inl (f, mkHandle t (if appends m then length c else 0%nat) m)).
  { unfold os_open. rewrite X, F, N, T. destruct (reads m) eqn:Rd, (writes m) eqn:Wr; rewrite ?R, ?W by reflexivity; reflexivity. }
  unfold fopen. rewrite E. split; [reflexivity|]. split.
  - intros [-> | ->]; cbn [block h_file]; rewrite N; reflexivity.
  - intros ->. cbn [block h_file]. rewrite N. cbn. now rewrite skipn_all.
Qed.
(* a link to nothing is no way to make a new file *)
Lemma x_dangling f n t l : f_node f n = Link t -> (exists w, f_parent f n = POk w) -> isfile f n = false ->
  fopen f n MX l = (f, [], Some NotAFile).
Proof.
  intros N P I. rewrite (fopen_exclusive f n MX l); [now rewrite I|now left| |exact P]. congruence.
Qed.
(* round trip *)
Lemma write_read f n d c t : may_truncate d -> follow max_links f n = inl t ->
  (f_node f t = Absent /\ f_parent f t = POk true \/ exists c0, f_node f t = File c0 true true) ->
  exists f1, path_write f n d None c = (f1, [], None) /\ path_read f1 n d = (f1, [c], None) /\ only_changes f f1 t.
Proof.
  intros D F S. assert (Lm : local_mode d) by (unfold may_truncate, local_mode in *; cbn in *; intuition).
  assert (V : local_valid d = true) by (unfold may_truncate in D; cbn in D; destruct D as [<-|[<-|[]]]; reflexivity).
  assert (Ed : effective d (Some MR) = MR) by (unfold may_truncate in D; cbn in D; destruct D as [<-|[<-|[]]]; reflexivity).
  assert (Nx : ~ needs_new d) by (unfold may_truncate, needs_new in *; cbn in *; intuition congruence).
  assert (G : exists f1, fopen f n d (map Write [c]) = (f1, [], None) /\ only_changes f f1 t /\ f_node f1 t = File c true true).
  { destruct S as [[A P]|(c0 & A)].
    - destruct (fopen_new f n d t [c] Lm) as (f1 & E & O & Q); auto.
      + unfold may_truncate, may_create in *; cbn in *; intuition.
      + intros Q. contradiction.
      + exists f1. cbn [concat] in Q. rewrite app_nil_r in Q. auto.
    - destruct (fopen_file f n d t c0 true true [c] Lm Nx) as (f1 & E & O & Q); auto.
      + unfold may_truncate in D; cbn in D; destruct D as [<-|[<-|[]]]; reflexivity.
      + exists f1. split; [exact E|]. split; [exact O|]. rewrite Q. cbn [concat]. rewrite app_nil_r.
        unfold may_truncate in D; cbn in D; destruct D as [<-|[<-|[]]]; reflexivity. }
  destruct G as (f1 & E & O & Q). exists f1. unfold path_write, path_read, path_open. rewrite V, effective_default, Ed. split; [exact E|].
  split; [|exact O].
  assert (F1 : follow max_links f1 n = inl t).
  { destruct O as [Op On]. clear - F Op On Q. revert n F. generalize max_links. intros k. induction k as [|k IH]; intros n; cbn [follow]; rewrite Op.
    - destruct (f_parent f n); try discriminate. destruct (Nat.eq_dec n t) as [->|K].
      + now rewrite Q.
      + rewrite (On n K). auto.
    - destruct (f_parent f n); try discriminate. destruct (Nat.eq_dec n t) as [->|K].
      + now rewrite Q.
      + rewrite (On n K). destruct (f_node f n); auto. }
  apply (fopen_update f1 n MR t c true true); auto.
  - now left.
  - cbn. intuition discriminate.
  - cbn. intuition discriminate.
Qed.

(* ---- HDF5 ---- *)
Lemma h5_r m : h5_restrict MR m = MR.
Proof. destruct m; reflexivity. Qed.
Lemma h5_rp m : In (h5_restrict MRP m) [MR; MRP].
Proof. destruct m; cbn; auto. Qed.
Lemma h5_a m : In (h5_restrict MA m) [MR; MA].
Proof. destruct m; cbn; auto. Qed.
Lemma h5_x m : In (h5_restrict MX m) [MX].
Proof. destruct m; cbn; auto. Qed.
Lemma h5_w m : h5_restrict MW m = match m with MR => MR | _ => MW end.
Proof. destruct m; reflexivity. Qed.
Lemma h5_init_modes d : h5_init d = Ok tt <-> In d [MR; MRP; MW; MX; MA].
Proof. destruct d; cbn; split; intros H; try discriminate; try reflexivity; intuition discriminate. Qed.
Lemma node_w a : snd (node_modes MW a) = MW.
Proof. destruct a as [[]|]; reflexivity. Qed.

(* ---- what goes wrong ---- *)
Lemma x_overwrites f n d a t c : needs_new d -> a = MW \/ a = MWP -> follow max_links f n = inl t -> f_node f t = File c true true ->
  exists f', path_open f n d (Some a) [] = (f', [], None) /\ f_node f' t = File [] true true.
Proof.
  intros D A F N. assert (E : effective d (Some a) = a /\ local_valid d = true).
  { unfold needs_new in D. cbn in D. destruct D as [<-|[<-|[]]], A as [-> | ->]; now split. }
  destruct E as [E V]. unfold path_open. rewrite V, E.
  destruct (fopen_file f n a t c true true [] ) as (f' & Q & _ & R); auto.
  - unfold local_mode. cbn. intuition.
  - unfold needs_new. cbn. destruct A as [-> | ->]; intuition discriminate.
  - destruct A as [-> | ->]; reflexivity.
  - exists f'. split; [exact Q|]. rewrite R. destruct A as [-> | ->]; reflexivity.
Qed.
Lemma x_read f n d : needs_new d -> (exists w, f_parent f n = POk w) ->
  (isfile f n = true -> path_read f n d = (f, [], Some (Os EEXIST))) /\
  (f_node f n = Absent -> f_parent f n = POk true -> 
   exists f' out r, path_read f n d = (f', out, r) /\ f_node f' n = File [] true true).
Proof.
  intros D P. assert (E : effective d (Some MR) = d /\ local_valid d = true).
  { unfold needs_new in D. cbn in D. destruct D as [<-|[<-|[]]]; now split. }
  destruct E as [E V]. unfold path_read, path_open. rewrite V, E. split.
  - intros I. rewrite (fopen_exclusive f n d); [now rewrite I|exact D| |exact P].
    intros N. unfold isfile, max_links in I. destruct P as [w P]. cbn [follow] in I. rewrite P, N, N in I. discriminate.
  - intros N P'. unfold fopen, os_open. replace (exclusive d) with true by (unfold needs_new in D; cbn in D; destruct D as [<-|[<-|[]]]; reflexivity).
    rewrite P', N. unfold make. rewrite P'. destruct (block _ _ [Read]) as [[f2 o] s] eqn:B. eexists _, _, _. split; [reflexivity|].
    cbn [block h_file] in B. rewrite put_same in B. destruct (reads _); injection B as <- _ _; apply put_same.
Qed.
Lemma w_overwrites f n d a t c : may_truncate d -> a <> MR -> follow max_links f n = inl t -> f_node f t = File c true true ->
  exists f', path_open f n d (Some a) [] = (f', [], None) /\ f_node f' t = File [] true true.
Proof.
  intros D A F N. pose proof (effective_w d (Some a) D) as M.
  assert (V : local_valid d = true) by (unfold may_truncate in D; cbn in D; destruct D as [<-|[<-|[]]]; reflexivity).
  assert (R : effective d (Some a) <> MR).
  { unfold may_truncate in D; cbn in D; destruct D as [<-|[<-|[]]], a; cbn; congruence. }
  specialize (M R). unfold path_open. rewrite V. set (m := effective d (Some a)) in *. clearbody m.
  assert (W : m = MW \/ m = MWP) by (unfold may_truncate in M; cbn in M; intuition).
  destruct (fopen_file f n m t c true true []) as (f' & Q & _ & S); auto.
  - destruct W as [-> | ->]; cbn; intuition.
  - destruct W as [-> | ->]; cbn; intuition discriminate.
  - destruct W as [-> | ->]; reflexivity.
  - exists f'. split; [exact Q|]. rewrite S. destruct W as [-> | ->]; reflexivity.
Qed.
(* an error of the block is reported as an error of this file *)
Lemma body_error f n t c r w : follow max_links f n = inl t -> f_node f t = File c r w -> r = true ->
  fopen f n MR [RaiseOs ENOENT] = (f, [], Some Missing) /\
  fopen f n MR [RaiseOs EISDIR] = (f, [], Some NotAFile).
Proof.
  intros F N ->. unfold fopen, os_open. cbn [exclusive among existsb fmode_eqb orb]. rewrite F, N. cbn. rewrite N. now split.
Qed.
Lemma h5_keeps d m : In d [MR; MRP; MA] -> exists rw, h5_existing (h5_restrict d m) = Keep rw.
Proof. cbn [In]. intros [E|[E|[E|[]]]]; subst d; destruct m; cbn; eauto. Qed.
Lemma h5_no_new d m : In d [MR; MRP] -> h5_missing (h5_restrict d m) = Refuse.
Proof. cbn [In]. intros [E|[E|[]]]; subst d; destruct m; reflexivity. Qed.
