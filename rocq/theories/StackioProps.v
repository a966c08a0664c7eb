(* Property C96: stacks of images in align/alignSource.py and align/alignDest.py *)
From Verif Require Import NumpyModel SetitemSpec StackioModel StackioSpec StackioProofs.
Local Open Scope nat_scope.

(* When a source is accepted and when not. Only datasets in an HDF5 file are compared with each other. *)
Theorem C96_source : forall V checked (src : list (arr V)) stackdim,
  match source_init checked src stackdim with
  | Ok s => sets s = src /\ exists a rest, src = a :: rest /\ length (shp a) <= 3 /\ (checked = true -> Forall (fun b => shp b = shp a) src) /\
            (forall z, stackdim = Some z -> 0 <= z <= 2)%Z
  | Err e => (e = IndexError /\ src = [] \/ e = ValueError /\ (exists z, stackdim = Some z /\ (z < 0 \/ 2 < z)%Z) \/
              e = ValueError /\ exists a rest, src = a :: rest /\ (3 < length (shp a) \/ checked = true /\ ~ Forall (fun b => shp b = shp a) src))
  end.
Proof. exact @source_spec. Qed.
Print Assumptions C96_source.

(* Datasets with three dimensions: the stack dimension is the one that was asked for, it gives the number of images, the other two the size. *)
Theorem C96_size : forall V checked (src : list (arr V)) stackdim d n h w,
  asked stackdim d -> src <> [] -> Forall (fun a => shp a = at_image d n h w) src ->
  source_init checked src stackdim = Ok {| sets := src; dim := Z.of_nat d; nimages := n; imgsize := [h; w] |}.
Proof. exact @source_ok. Qed.
Print Assumptions C96_size.

(* Reading image i along dimension d. *)
Theorem C96_read : forall V (s : stack (V := V)) j a d n h w i,
  d < 3 -> dim s = Z.of_nat d -> nth_error (sets s) j = Some a -> shp a = at_image d n h w -> i < n ->
  exists img, readimg s j (Z.of_nat i) = Ok img /\ shp img = [h; w] /\
    forall y x, y < h -> x < w -> elt img [y; x] = elt a (at_image d i y x).
Proof. exact @read_ok. Qed.
Print Assumptions C96_read.

Theorem C96_read_outside : forall V (s : stack (V := V)) j a d n h w z,
  d < 3 -> dim s = Z.of_nat d -> nth_error (sets s) j = Some a -> shp a = at_image d n h w ->
  (z < - Z.of_nat n \/ Z.of_nat n <= z)%Z -> readimg s j z = Err IndexError.
Proof. exact @read_out. Qed.
Print Assumptions C96_read_outside.

(* Writing an image: the pixels of that image, and nothing else, in that dataset, and no other dataset. *)
Theorem C96_write : forall V (t : target (V := V)) j dt a d n h w i img,
  d < 3 -> odim t = Z.of_nat d -> nth_error (outs t) j = Some (dt, a) -> shp a = at_image d n h w -> i < n -> shp img = [h; w] ->
  exists a', writeimg t img j (Z.of_nat i) = Ok {| outs := set_nth (outs t) j (dt, a'); odim := odim t; overwrite := overwrite t |} /\
    shp a' = shp a /\
    forall k y x, y < h -> x < w -> elt a' (at_image d k y x) = if Nat.eqb k i then elt img [y; x] else elt a (at_image d k y x).
Proof. exact @write_ok. Qed.
Print Assumptions C96_write.

Theorem C96_write_outside : forall V (t : target (V := V)) j dt a d n h w z img,
  d < 3 -> odim t = Z.of_nat d -> nth_error (outs t) j = Some (dt, a) -> shp a = at_image d n h w ->
  (z < - Z.of_nat n \/ Z.of_nat n <= z)%Z -> writeimg t img j z = Err IndexError.
Proof. exact @write_out. Qed.
Print Assumptions C96_write_outside.

(* Preparing a destination: afterwards all datasets have the asked shape and type. Datasets that have them already are not touched,
   otherwise they must be of that type and may be overwritten. *)
Theorem C96_prepare : forall V (refill : arr V -> list nat -> list nat -> V) t d n h w dt,
  d < 3 -> odim t = Z.of_nat d ->
  match prepare refill t n [h; w] dt with
  | Ok t' => odim t' = odim t /\ length (outs t') = length (outs t) /\
             Forall (fun o => fst o = dt /\ shp (snd o) = at_image d n h w) (outs t') /\
             (Forall (fun o => fst o = dt /\ shp (snd o) = at_image d n h w) (outs t) /\ outs t' = outs t \/
              overwrite t = true /\ Forall (fun o => fst o = dt) (outs t))
  | Err e => e = ValueError /\ ~ Forall (fun o => fst o = dt /\ shp (snd o) = at_image d n h w) (outs t) /\
             (overwrite t = false \/ ~ Forall (fun o => fst o = dt) (outs t))
  end.
Proof. exact @prepare_spec. Qed.
Print Assumptions C96_prepare.

(* Aligning a stack that needs no transformation copies it, whatever the stack dimension.
   Missing from the full property: datasets with one or two dimensions (see the refutations). *)
Theorem C96_copy_partial : forall V (cast : V -> V) refill checked src stackdim d n h w dst ov dt,
  asked stackdim d -> src <> [] -> Forall (fun a => shp a = at_image d n h w) src ->
  length dst = length src -> Forall (fun o => fst o = dt) dst ->
  ov = true \/ Forall (fun o => shp (snd o) = at_image d n h w) dst ->
  exists l, align_copy cast refill checked src stackdim dst ov dt = Ok l /\
    Forall2 (fun a b => shp b = shp a /\ forall o, inside (shp a) o -> elt b o = cast (elt a o)) src l.
Proof. exact @align_copy_ok. Qed.
Print Assumptions C96_copy_partial.

(* two stacks of two images of 2x3 pixels along the middle dimension; the destination has another shape *)
Definition ex_refill (a : arr nat) (s o : list nat) : nat := 0.
Definition ex_copy checked shapes stackdim outshapes ov :=
  match align_copy (fun x => x) ex_refill checked (map (fun p => ex_st (snd p) (fst p)) (combine (seq 1 9) shapes)) stackdim
          (map (fun s => (7, ex_st s 0)) outshapes) ov 7 with
  | Ok l => Ok (map (fun a => (shp a, contents a)) l)
  | Err e => Err e
  end.
Example C96_copy_holds :
  asked (Some 1%Z) 1 /\ Forall (fun a => shp a = at_image 1 2 2 3) [ex_st [2; 2; 3] 1; ex_st [2; 2; 3] 2] /\
  ex_copy true [[2; 2; 3]; [2; 2; 3]] (Some 1%Z) [[1]; [4; 4]] true =
    Ok [([2; 2; 3], [1000; 1001; 1002; 1010; 1011; 1012; 1100; 1101; 1102; 1110; 1111; 1112]);
        ([2; 2; 3], [2000; 2001; 2002; 2010; 2011; 2012; 2100; 2101; 2102; 2110; 2111; 2112])].
Proof. split; [split; [auto|left; reflexivity]|]. split; [repeat constructor|]. vm_compute. reflexivity. Qed.
Example C96_read_holds :
  match readimg {| sets := [ex_st [2; 2; 3] 1]; dim := 1; nimages := 2; imgsize := [2; 3] |} 0 1 with
  | Ok img => contents img = [1010; 1011; 1012; 1110; 1111; 1112]
  | Err _ => False
  end.
Proof. vm_compute. reflexivity. Qed.
Example C96_prepare_errors :
  ex_copy true [[2; 2; 3]] (Some 1%Z) [[1]] false = Err ValueError /\
  ex_copy true [[2; 2; 3]; [2; 2; 4]] (Some 1%Z) [[1]; [1]] true = Err ValueError /\
  ex_copy true [[2; 2; 3]] (Some 3%Z) [[1]] true = Err ValueError /\
  ex_copy true [[2; 2; 2; 2]] None [[1]] true = Err ValueError.
Proof. vm_compute. auto. Qed.

(* A dataset with two dimensions counts as one image, but only its first column is read: the whole copy is filled with that column. *)
Theorem C96_single_image_refuted :
  ~ (forall r c, exists img, readimg {| sets := [ex_st [r; c] 1]; dim := 2; nimages := 1; imgsize := [r; c] |} 0 0 = Ok img /\ shp img = [r; c]) /\
  (exists s, source_init true [ex_st [2; 3] 1] None = Ok s /\ nimages s = 1 /\ imgsize s = [2; 3]) /\
  ex_copy true [[2; 3]] None [[2; 3; 1]] false = Ok [([2; 3; 1], [100; 100; 100; 110; 110; 110])].
Proof.
  split; [|split].
  - intros H. destruct (H 2 3) as (img & E & S'). vm_compute in E. injection E as <-. discriminate.
  - eexists. split; [vm_compute; reflexivity|]. split; reflexivity.
  - vm_compute. reflexivity.
Qed.
Print Assumptions C96_single_image_refuted.

(* A dataset with one dimension: the copy is filled with its first element. *)
Theorem C96_profile_refuted : ex_copy true [[3]] None [[3; 1; 1]] false = Ok [([3; 1; 1], [10; 10; 10])].
Proof. vm_compute. reflexivity. Qed.
Print Assumptions C96_profile_refuted.

(* With another stack dimension than the last one, the number and the size of the images are those of that dimension, but the images are read along
   the last dimension: the rows of a square become columns without a warning, and other datasets cannot be read. *)
Theorem C96_dimension_refuted :
  (exists s, source_init true [ex_st [2; 2] 1] (Some 0%Z) = Ok s /\ nimages s = 2 /\ imgsize s = [2; 1] /\
    exists img, readimg s 0 0 = Ok img /\ contents img = [100; 110]) /\
  ex_copy true [[3; 2]] (Some 0%Z) [[1]] true = Err ValueError /\
  (exists s, source_init true [ex_st [3; 2] 1] (Some 0%Z) = Ok s /\ nimages s = 3 /\ readimg s 0 2 = Err IndexError).
Proof.
  split; [|split].
  - eexists. split; [vm_compute; reflexivity|]. split; [reflexivity|]. split; [reflexivity|]. eexists. split; vm_compute; reflexivity.
  - vm_compute. reflexivity.
  - eexists. split; [vm_compute; reflexivity|]. split; vm_compute; reflexivity.
Qed.
Print Assumptions C96_dimension_refuted.

(* In a list of arrays the shapes are not compared: an array with smaller images is repeated over the destination. *)
Theorem C96_list_refuted :
  ex_copy false [[1; 2; 2]; [1; 1; 2]] (Some 0%Z) [[1]; [1]] true = Ok [([1; 2; 2], [1000; 1001; 1010; 1011]); ([1; 2; 2], [2000; 2001; 2000; 2001])] /\
  ex_copy true [[1; 2; 2]; [1; 1; 2]] (Some 0%Z) [[1]; [1]] true = Err ValueError.
Proof. vm_compute. auto. Qed.
Print Assumptions C96_list_refuted.
