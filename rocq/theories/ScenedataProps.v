(* C116: images of a stack for display (visualization/scene_data.py) *)
From Verif Require Import ScenedataProofs ScenedataShow.
From Verif Require Export ScenedataSpec QcTac.
From Verif Require AxisModel.
Local Open Scope list_scope.
Local Open Scope nat_scope.

(* Each item is located along each stack axis; its label is the one of the stack dimension. *)
Theorem C116_items : forall P V (g : stack P) (locate : nat -> V -> result Z) labels minus1 items r, NoDup (gstack_dims g) -> In (gstackdim g) (gstack_dims g) ->
  set_items g locate labels minus1 (Some items) = Ok r -> Forall2 (is_item locate labels minus1 (gstackdim g) (gstack_dims g) (List.length (gaxes g))) items r.
Proof. exact @items_ok. Qed.
Print Assumptions C116_items.
(* Such an item is an image along the axes that are not stack axes. *)
Theorem C116_image : forall P V (g : stack P) (locate : nat -> V -> result Z) labels minus1 it x, is_item locate labels minus1 (gstackdim g) (gstack_dims g) (List.length (gaxes g)) it x ->
  (forall d v j n, locate d v = Ok j -> nth_error (gshape g) d = Some n -> (- Z.of_nat n <= j < Z.of_nat n)%Z) -> selected (fst x) (gshape g) = Ok (map snd (axes_of g)).
Proof. exact @item_selects. Qed.
Print Assumptions C116_image.
(* Without items there is one for each position along the stack dimension. *)
Theorem C116_all_items : forall P V (g : stack P) (locate : nat -> V -> result Z) labels minus1 name n, nth_error (gaxes g) (gstackdim g) = Some (name, n) ->
  exists r, set_items g locate labels minus1 None = Ok r /\ List.length r = n /\
    forall i, i < n -> exists idx, nth_error r i = Some (idx, labels (Z.of_nat i)) /\
      forall d, d < List.length (gaxes g) -> nth_error idx d = Some (if d =? gstackdim g then At (Z.of_nat i) else Slice).
Proof. exact @all_items. Qed.
Print Assumptions C116_all_items.
(* With two stack dimensions these cannot be displayed. *)
Theorem C116_all_items_refuted : forall P V (g : stack P) (locate : nat -> V -> result Z) labels minus1 ia b n m r, gstack_dims g = [gstackdim g; b] -> gstackdim g <> b -> b < List.length (gaxes g) ->
  nth_error (gshape g) (gstackdim g) = Some n -> 0 < n -> remove_at (gstackdim g) (gshape g) = m :: r -> m <> 1 ->
  exists items, set_items g locate labels minus1 None = Ok items /\ displaydata g ia items None = Err ValueError.
Proof. exact @all_items_fail. Qed.
Print Assumptions C116_all_items_refuted.
(* A list is not accepted as an item. *)
Theorem C116_list_refuted : forall P V (g : stack P) (locate : nat -> V -> result Z) labels minus1 l items, gstackdim g < List.length (gaxes g) ->
  set_items g locate labels minus1 (Some (AList l :: items)) = Err TypeError.
Proof. exact @list_item. Qed.
Print Assumptions C116_list_refuted.
(* The default -1 of the second stack axis is a value: of coordinates that are not integers the lowest is taken when it is the first, not the last. *)
Theorem C116_default_refuted : forall x arr, (0 <= x)%Qc -> (forall y, In y arr -> (x <= y)%Qc) ->
  AxisModel.locate false (x :: arr) (AxisModel.TOne (AxisModel.NInt (-1))) true = Ok (AxisModel.LOne 0).
Proof. exact default_position. Qed.
Print Assumptions C116_default_refuted.
(* Displayed are the items asked for: channel k refers to the image and label of item k, None to nothing. *)
Theorem C116_display : forall P (g : stack P) ia items sel sh d c l t, (forall x, In x items -> selected (fst x) (gshape g) = Ok (map snd (axes_of g))) -> transpose g ia = Ok t ->
  displaydata g ia items (Some sel) = Ok (sh, d, c, l) ->
  List.length c = List.length sel /\ List.length d = some_count sel /\ List.length l = some_count sel /\
  forall k, (nth_error sel k = Some None -> nth_error c k = Some None) /\
    forall i, nth_error sel k = Some (Some i) -> exists n f idx lab, n = some_count (firstn k sel) /\ nth_error c k = Some (Some n) /\ nth_error d n = Some f /\ nth_error l n = Some lab /\ py_get items i = Ok (idx, lab) /\
      forall p, inside p (map snd (axes_of g)) = true -> f (if t then swap p else p) = gread g (position idx (gshape g) p).
Proof. exact @display. Qed.
Print Assumptions C116_display.
(* It does not fail for images and existing items. *)
Theorem C116_display_total : forall P (g : stack P) ia items sel, (forall x, In x items -> selected (fst x) (gshape g) = Ok (map snd (axes_of g))) -> 2 <= List.length (axes_of g) ->
  (forall l i, sel = Some l -> In (Some i) l -> exists x, py_get items i = Ok x) -> exists r, displaydata g ia items sel = Ok r.
Proof. exact @display_total. Qed.
Print Assumptions C116_display_total.
(* The shape of the images is the one of the image axes, which are in the order of the instrument. *)
Theorem C116_shape : forall P (g : stack P) ia items sel sh d c l ax, List.length (axes_of g) = 2 -> displaydata g ia items sel = Ok (sh, d, c, l) -> image_axes g ia = Ok ax -> map snd ax = sh.
Proof. exact @shape_axes. Qed.
Print Assumptions C116_shape.
Theorem C116_order : forall P (g : stack P) ia x y, axes_of g = [x; y] -> (fst x = fst ia /\ fst y = snd ia) \/ (fst x = snd ia /\ fst y = fst ia) -> fst ia <> snd ia ->
  exists ax, image_axes g ia = Ok ax /\ map fst ax = [fst ia; snd ia].
Proof. exact @axes_order. Qed.
Print Assumptions C116_order.
(* The names given for the axes are ignored. *)
Theorem C116_names_refuted : forall given titles, axisnames given None titles = titles.
Proof. exact names_ignored. Qed.
Print Assumptions C116_names_refuted.
(* Spectra of all files, with numbers and labels for each file; *)
Theorem C116_spectra_partial : forall A (all : string -> list A) files numbers labels, List.length files = List.length numbers -> List.length files = List.length labels -> numbers <> [] -> labels <> [] ->
  (forall ns, In ns numbers -> ns <> []) -> (forall ls, In ls labels -> ls <> []) ->
  spectra all files (Nested numbers) (Nested labels) = combine (combine files numbers) labels.
Proof. exact @every_file. Qed.
Print Assumptions C116_spectra_partial.
(* without labels at most the first file is used. *)
Theorem C116_spectra_refuted : forall A (all : string -> list A) files numbers, List.length (spectra all files numbers Nothing) <= 1.
Proof. exact @first_file. Qed.
Print Assumptions C116_spectra_refuted.

(* three signals of four by two by five pixels, the second axis of the signals being their stack axis *)
Local Open Scope string_scope.
Definition ex_stack : stack (list nat) := {| gaxes := [("signals", 3); ("z", 4); ("energy", 2); ("y", 5)]; gstackdim := 0; gstack_dims := [0; 2]; gread := fun p => p |}.
Definition ex_locate (d : nat) (v : Z) : result Z := match d with 0 => if (v <? 3)%Z then Ok v else Err ValueError | 2 => if (v <? 2)%Z then Ok v else Err ValueError | _ => Err ValueError end.
Definition ex_label (j : Z) : string := if (j =? 0)%Z then "S-K" else if (j =? 1)%Z then "Ca-K" else "Fe-K".
Definition ex_items := [([At 1; Slice; At (-1); Slice], "Ca-K"); ([At 2; Slice; At 0; Slice], "Fe-K")]%Z.
Example C116_items_example : NoDup (gstack_dims ex_stack) /\ In (gstackdim ex_stack) (gstack_dims ex_stack) /\ set_items ex_stack ex_locate ex_label (-1)%Z (Some [Value 1%Z; Tuple [2; 0]%Z]) = Ok ex_items.
Proof. repeat split; [|now left]. repeat constructor; cbn; intuition discriminate. Qed.
Definition ex_display (ia : string * string) := match displaydata ex_stack ia ex_items (Some [Some 1%Z; None; Some (-2)%Z]) with Ok (sh, d, c, l) => Some (sh, map (fun f => f [3; 2]) d, c, l) | Err _ => None end.
Example C116_display_example : (forall x, In x ex_items -> selected (fst x) (gshape ex_stack) = Ok (map snd (axes_of ex_stack))) /\ axes_of ex_stack = [("z", 4); ("y", 5)] /\
  ex_display ("z", "y") = Some ([4; 5], [[2; 3; 0; 2]; [1; 3; 1; 2]], [Some 0; None; Some 1], ["Fe-K"; "Ca-K"]) /\
  ex_display ("y", "z") = Some ([5; 4], [[2; 2; 0; 3]; [1; 2; 1; 3]], [Some 0; None; Some 1], ["Fe-K"; "Ca-K"]) /\
  image_axes ex_stack ("y", "z") = Ok [("y", 5); ("z", 4)].
Proof. split; [intros x [<-|[<-|[]]]; reflexivity|]. repeat split; reflexivity. Qed.
Example C116_fail_example : gstack_dims ex_stack = [gstackdim ex_stack; 2] /\ nth_error (gshape ex_stack) (gstackdim ex_stack) = Some 3 /\ remove_at (gstackdim ex_stack) (gshape ex_stack) = [4; 2; 5].
Proof. repeat split; reflexivity. Qed.
Example C116_default_example : AxisModel.locate false [Q2Qc (71 # 10); Q2Qc (72 # 10)] (AxisModel.TOne (AxisModel.NInt (-1))) true = Ok (AxisModel.LOne 0) /\
  AxisModel.locate true [Qc_of_Z 7; Qc_of_Z 8] (AxisModel.TOne (AxisModel.NInt (-1))) true = Ok (AxisModel.LOne (-1)).
Proof. split; vm_compute; reflexivity. Qed.
Example C116_spectra_example : spectra (fun _ => [7; 8]) ["a"; "b"] (Nested [[1; 2]; [3]]) (Nested [[10; 20]; [30]]) = [("a", [1; 2], [10; 20]); ("b", [3], [30])] /\
  spectra (fun _ => [7; 8]) ["a"; "b"] (Nested [[1; 2]; [3]]) Nothing = [("a", [1; 2], [1; 2])] /\ spectra (fun _ => [7; 8]) ["a"; "b"] (Flat []) Nothing = [("a", [7; 8], [7; 8])].
Proof. repeat split; reflexivity. Qed.
