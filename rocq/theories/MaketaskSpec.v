(* The documented methods and the modules of their tasks, for the statements *)
From Coq Require Import String List.
Import ListNotations.
Local Open Scope string_scope.
Local Open Scope list_scope.

Definition methods : list (string * string) :=
  [("crop", "nxcrop"); ("replace", "nxreplace"); ("minlog", "nxminlog"); ("align", "nxalign"); ("expression", "nxexpression");
   ("resample", "nxresample"); ("pymca", "nxpymca"); ("fullfield", "nxfullfield"); ("xiaedftonx", "nxxiaedf"); ("scenevis", "scenevis");
   ("xrfgeometry", "nxqxrf"); ("blissmerge", "nxblissmerge"); ("blissmcapre", "nxblissmcapre"); ("blisspymca", "nxblisspymca");
   ("stack", "nxstack"); ("tile", "nxtile")].
