(* Model of src/spectrocrunch/math/ft.py.  Numbers are exact; complex numbers are an
   abstract type with the operations the code uses. *)
From Verif Require Export Base QcTac NumpyModel.

(* math/ft.py:4 fftConvention *)
Inductive convention : Type := Numpy | Idl.

(* math/ft.py:30-44 fft_freqind *)
Definition fft_freqind (n : Z) (c : convention) : Z * Z :=
  match c with
  | Idl => (- (n / 2) + (1 - n mod 2), (n + 1) / 2 - n mod 2)
  | Numpy => (- (n / 2), (n + 1) / 2 - 1)
  end.

(* np.arange(a, b) *)
Definition arange (a b : Z) : list Z := map (fun i => a + Z.of_nat i) (seq 0 (Z.to_nat (b - a))).
(* np.empty(n): whatever the memory holds *)
Definition np_empty (mem : nat -> Z) (n : Z) : list Z := map mem (seq 0 (Z.to_nat n)).
(* buf[a:b] = v for one-dimensional arrays: the lengths must agree, or v has length 1 *)
Definition set_range (buf : list Z) (a b : option Z) (v : list Z) : result (list Z) :=
  let n := Z.of_nat (length buf) in
  let i := Z.to_nat (slice_bound n 0 a) in
  let j := Nat.max i (Z.to_nat (slice_bound n n b)) in
  let v' := match v with [x] => repeat x (j - i) | _ => v end in
  if (length v' =? j - i)%nat then Ok (firstn i buf ++ v' ++ skipn j buf) else Err ValueError.

(* math/ft.py:47-66 fftfreq, for a spacing d other than zero *)
Definition fftfreq (mem : nat -> Z) (n : Z) (d : Qc) (centered : bool) (c : convention) : result (list Qc) :=
  let (imin, imax) := fft_freqind n c in
  let! freq :=
    if centered then Ok (arange imin (imax + 1))
    else
      let buf := np_empty mem n in
      let npos := imax + 1 in
      let! buf := set_range buf None (Some npos) (arange 0 npos) in
      set_range buf (Some npos) None (arange imin 0)
  in Ok (map (fun k => (Qc_of_Z k / (Qc_of_Z n * d))%Qc) freq).

(* np.take(a, ind, axis=k) *)
Definition np_take {V} (a : arr V) (ind : list Z) (axis : nat) : result (arr V) :=
  match nth_error (shp a) axis with
  | None => Err ValueError
  | Some n =>
      let! pos := mapM (fun i => match py_pos n i with Some k => Ok k | None => Err IndexError end) ind in
      Ok {| shp := set_nth (shp a) axis (length pos);
            elt := fun o => elt a (set_nth o axis (nth (nth axis o 0%nat) pos 0%nat)) |}
  end.

(* the index array built in fftshift (82-85) and ifftshift (103-106) *)
Definition shift_ind (mem : nat -> Z) (n npos : Z) : result (list Z) :=
  let ind := np_empty mem n in
  let off := n - npos in
  let! ind := set_range ind None (Some off) (arange npos n) in
  set_range ind (Some off) None (arange 0 npos).
(* the loop over the dimensions, with npos of each dimension *)
Fixpoint shift_dims {V} (mem : nat -> Z) (dims : list nat) (npos : Z -> Z) (k : nat) (out : arr V) : result (arr V) :=
  match dims with
  | [] => Ok out
  | n :: dims' =>
      let! ind := shift_ind mem (Z.of_nat n) (npos (Z.of_nat n)) in
      let! out := np_take out ind k in
      shift_dims mem dims' npos (S k) out
  end.
(* math/ft.py:69-87 fftshift *)
Definition fftshift {V} (mem : nat -> Z) (a : arr V) (c : convention) : result (arr V) :=
  shift_dims mem (shp a) (fun n => snd (fft_freqind n c) + 1) 0 a.
(* math/ft.py:90-108 ifftshift *)
Definition ifftshift {V} (mem : nat -> Z) (a : arr V) (c : convention) : result (arr V) :=
  shift_dims mem (shp a) (fun n => - fst (fft_freqind n c)) 0 a.

(* ---- Fourier transforms ---- *)
Record complex_ops : Type := {
  cnum : Type;
  czero : cnum;
  cadd : cnum -> cnum -> cnum;
  cmul : cnum -> cnum -> cnum;
  cexp : Qc -> cnum;               (* exp(2j pi q) *)
  cscale : nat -> cnum -> cnum;    (* n * x *)
  cdiv : cnum -> nat -> cnum       (* x / n, n not zero *)
}.

Section Dft.
Variable K : complex_ops.
Variable mem : nat -> Z.
Local Notation C := (cnum K).

(* the sum of g 0, ..., g (n - 1) *)
Fixpoint csum (n : nat) (g : nat -> C) : C :=
  match n with O => czero K | S n' => cadd K (csum n' g) (g n') end.

Definition cnth (f : list C) (j : nat) : C := nth j f (czero K).
Definition qnth (x : list Qc) (j : nat) : Qc := nth j x 0%Qc.

(* math/ft.py:111-124 _realspace *)
Definition realspace (N : nat) (dx : Qc) (x0 : Z) (x1 : option Z) : result (list Qc) :=
  let x1 := match x1 with Some x1 => x1 | None => Z.of_nat N - 1 end in
  if x1 <? x0 then Err ValueError
  else Ok (map (fun i => (Qc_of_Z i * dx)%Qc) (arange x0 (x1 + 1))).

(* np.fft.fft and np.fft.ifft (numpy's documentation) *)
Definition nat_ratio (a n : nat) : Qc := (Qc_of_Z (Z.of_nat a) / Qc_of_Z (Z.of_nat n))%Qc.
Definition np_fft (f : list C) : result (list C) :=
  let n := length f in
  if (n =? 0)%nat then Err ValueError
  else Ok (map (fun k => csum n (fun j => cmul K (cnth f j) (cexp K (- nat_ratio (k * j) n)%Qc))) (seq 0 n)).
Definition np_ifft (f : list C) : result (list C) :=
  let n := length f in
  if (n =? 0)%nat then Err ValueError
  else Ok (map (fun k => cdiv K (csum n (fun j => cmul K (cnth f j) (cexp K (nat_ratio (k * j) n)))) n) (seq 0 n)).

(* np.exp(c * np.outer(a, b)).dot(f) with c = sign * 2j * pi *)
Definition kernel_dot (sign : Qc) (a b : list Qc) (f : list C) : list C :=
  map (fun i => csum (length b) (fun j => cmul K (cexp K (sign * (qnth a i * qnth b j))%Qc) (cnth f j))) (seq 0 (length a)).

(* math/ft.py:127-187 _dft.  The frequencies u are the default ones when empty. *)
Definition default_call (dx : Qc) (x0 : Z) (x1 : option Z) (u : list Qc) : bool :=
  Qc_eqb dx 1 && (x0 =? 0) && match x1 with None => true | Some _ => false end
  && match u with [] => true | _ => false end.
Definition is_idl (c : convention) : bool := match c with Idl => true | Numpy => false end.
Definition dft (f : list C) (dx : Qc) (x0 : Z) (x1 : option Z) (u : list Qc)
    (centered inverse : bool) (norm : convention) : result (list C) :=
  if default_call dx x0 x1 u && negb centered then
    if inverse then
      let! ret := np_ifft f in
      Ok (if is_idl norm then map (cscale K (length f)) ret else ret)
    else
      let! ret := np_fft f in
      Ok (if is_idl norm then map (fun z => cdiv K z (length f)) ret else ret)
  else
    let! x := realspace (length f) dx x0 x1 in
    let! u := match u with [] => fftfreq mem (Z.of_nat (length f)) dx centered Numpy | _ => Ok u end in
    let! ret :=
      if inverse then
        if negb (length u =? length f)%nat then Err ValueError
        else Ok (kernel_dot 1 x u f)
      else
        if negb (length x =? length f)%nat then Err ValueError
        else Ok (kernel_dot (- (1)) u x f)
    in Ok (if xorb (is_idl norm) inverse then map (fun z => cdiv K z (length u)) ret else ret).

(* np.fft.fft2 and np.fft.ifft2 (numpy's documentation); f has shape [rows; columns] *)
Definition rows (f : arr C) : nat := nth 0 (shp f) 0%nat.
Definition cols (f : arr C) : nat := nth 1 (shp f) 0%nat.
Definition matrix (r c : nat) (g : nat -> nat -> C) : arr C :=
  {| shp := [r; c]; elt := fun o => match o with [i; j] => g i j | _ => czero K end |}.
Definition np_fft2_sum (sign : Qc) (f : arr C) (i j : nat) : C :=
  csum (rows f) (fun y => csum (cols f) (fun x =>
    cmul K (elt f [y; x]) (cexp K (sign * (nat_ratio (i * y) (rows f) + nat_ratio (j * x) (cols f)))%Qc))).
Definition np_fft2 (f : arr C) : result (arr C) :=
  if (rows f =? 0)%nat || (cols f =? 0)%nat then Err ValueError
  else Ok (matrix (rows f) (cols f) (np_fft2_sum (- (1)) f)).
Definition np_ifft2 (f : arr C) : result (arr C) :=
  if (rows f =? 0)%nat || (cols f =? 0)%nat then Err ValueError
  else Ok (matrix (rows f) (cols f) (fun i j => cdiv K (np_fft2_sum 1 f i j) (rows f * cols f))).
(* a.dot(b) for matrices whose inner dimensions agree (ValueError otherwise) *)
Definition mdot (a b : arr C) : result (arr C) :=
  if negb (cols a =? rows b)%nat then Err ValueError
  else Ok (matrix (rows a) (cols b) (fun i j => csum (cols a) (fun k => cmul K (elt a [i; k]) (elt b [k; j])))).
(* np.exp(c * a[:, None].dot(b[None, :])) *)
Definition kernel (sign : Qc) (a b : list Qc) : arr C :=
  matrix (length a) (length b) (fun i j => cexp K (sign * (qnth a i * qnth b j))%Qc).
Definition map_arr (g : C -> C) (a : arr C) : arr C := {| shp := shp a; elt := fun o => g (elt a o) |}.

(* math/ft.py:190-277 _dft2 *)
Definition dft2 (f : arr C) (dx : Qc) (x0 : Z) (x1 : option Z) (u : list Qc)
    (dy : Qc) (y0 : Z) (y1 : option Z) (v : list Qc)
    (centered inverse : bool) (norm : convention) : result (arr C) :=
  if default_call dx x0 x1 u && default_call dy y0 y1 v && negb centered then
    if inverse then
      let! ret := np_ifft2 f in
      Ok (if is_idl norm then map_arr (cscale K (rows f * cols f)) ret else ret)
    else
      let! ret := np_fft2 f in
      Ok (if is_idl norm then map_arr (fun z => cdiv K z (rows f * cols f)) ret else ret)
  else
    let! x := realspace (cols f) dx x0 x1 in
    let! y := realspace (rows f) dy y0 y1 in
    let! u := match u with [] => fftfreq mem (Z.of_nat (cols f)) dx centered Numpy | _ => Ok u end in
    let! v := match v with [] => fftfreq mem (Z.of_nat (rows f)) dy centered Numpy | _ => Ok v end in
    let! (row_kernel, col_kernel) :=
      if inverse then
        if negb (length u =? cols f)%nat || negb (length v =? rows f)%nat then Err ValueError
        else Ok (kernel 1 y v, kernel 1 u x)
      else
        if negb (length x =? cols f)%nat || negb (length y =? rows f)%nat then Err ValueError
        else Ok (kernel (- (1)) v y, kernel (- (1)) x u)
    in
    let! ret := mdot row_kernel f in
    let! ret := mdot ret col_kernel in
    Ok (if xorb (is_idl norm) inverse then map_arr (fun z => cdiv K z (length u * length v)) ret else ret).
End Dft.
