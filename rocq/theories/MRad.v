(** Model of pyoof/aperture/aperture.py:439-556 [radiation_pattern], with the
    discrete Fourier transform given by its defining sum (numpy.fft.fft2 computes
    that sum; its rounding is not modelled). *)
From Verif Require Import PyBase Num MMath MAperture.
From Coquelicot Require Import Complex.
Open Scope R_scope.

(** Finite complex sum f 0 + ... + f (n-1). *)
Fixpoint Csum (n : nat) (f : nat -> C) : C :=
  match n with O => RtoC 0 | S k => Cplus (Csum k f) (f k) end.

Definition cis (t : R) : C := (cos t, sin t).

(** Element (j, i) of a 2-D array; row j, column i. *)
Definition at2 (M : list (list C)) (j i : nat) : C := nth i (nth j M []) (RtoC 0).

(** numpy.fft.fft2(E), default norm, on an [n0] x [n1] array:
    F[q,p] = sum_j sum_i E[j,i] exp(-2 pi i (q j / n0 + p i / n1)). *)
Definition fft2 (E : list (list C)) : list (list C) :=
  let n0 := length E in
  let n1 := ncols E in
  map (fun q => map (fun p =>
    Csum n0 (fun j => Csum n1 (fun i =>
      Cmult (at2 E j i)
        (cis (- (2 * PI * (INR q * INR j / INR n0 + INR p * INR i / INR n1)))))))
    (seq 0 n1)) (seq 0 n0).

(** numpy.fft.fftshift along one axis: roll by n//2. *)
Definition fftshift {A} (l : list A) : list A :=
  let n := length l in
  skipn (n - n / 2) l ++ firstn (n - n / 2) l.
(** numpy.fft.fftshift of a 2-D array (both axes). *)
Definition fftshift2 {A} (M : list (list A)) : list (list A) := fftshift (map fftshift M).

(** numpy.fft.fftfreq(n, d): [0, ..., (n-1)//2, -(n//2), ..., -1] / (n d). *)
Definition fftfreq (n : nat) (d : R) : list R :=
  map (fun k => IZR k * (1 / (INR n * d)))
    (map Z.of_nat (seq 0 ((n - 1) / 2 + 1)) ++ map (fun i => (Z.of_nat i - Z.of_nat (n / 2))%Z) (seq 0 (n / 2))).

(** aperture.py:514-556.  [wavel] in metres, the axes in radians.  [x[1]] raises
    IndexError for fewer than two samples. *)
Definition radiation_pattern (illum : list R -> R -> res (R -> R -> R)) (tel : telgeo)
    (I K : list R) (d_z wavel : R) (resolution : nat) (box_factor : R)
  : res (list R * list R * list (list C)) :=
  let box_size := tel_pr tel * box_factor in
  let x := linspace (- box_size) box_size resolution in
  let y := x in
  bind (py_get x 1) (fun x1 => bind (py_get x 0) (fun x0 =>
  bind (py_get y 1) (fun y1 => bind (py_get y 0) (fun y0 =>
  let dx := x1 - x0 in
  let dy := y1 - y0 in
  bind (aperture illum tel I K d_z wavel) (fun E =>
  let F_shift := fftshift2 (fft2 (map2d (fun '(a, b) => E a b) (meshgrid x y))) in
  let u := fftfreq (length x) dx in
  let v := fftfreq (length y) dy in
  let u_shift := map (fun s => s * wavel) (fftshift u) in
  let v_shift := map (fun s => s * wavel) (fftshift v) in
  Ok (u_shift, v_shift, F_shift)))))).

(** |F|^2 of every sample (core.py:108, simulate_data.py). *)
Definition power_pattern (F : list (list C)) : list (list R) := map2d (fun z => Cmod z ^ 2) F.
