(** Model of telgeometry.opd_manual, telgeometry.block_manual, aperture.illum_parabolic,
    aperture.aperture and aperture.radiation_pattern in IEEE binary64: the branches of
    MTel.v, MAperture.v and MRad.v with every numpy operation rounded.
    Simplifications: no overflow; lengths in metres, so that units add no factors. *)
From Coq Require Import List.
From Verif Require Import PyBase Num MAperture MRad SFloat MFloat MFloat2 MFloat3.
From Coquelicot Require Import Complex.
Import ListNotations.
Open Scope R_scope.

(** The functions of the numpy build that IEEE 754 does not fix: those of [libm], np.arctan2, [b ** q] of
    floats, [10 ** x], np.abs of a complex number and np.fft.fft2. *)
Record maths := { m_lm : libm; m_atan2 : R -> R -> R; m_pow : R -> R -> num; m_pow10 : R -> R; m_abs : C -> R; m_fft : list (list C) -> list (list C) }.

(** telgeometry.py:87-100 [opd_manual(Fp, F)](x, y, d_z). *)
Definition opd_manual64 (Fp F x y d_z : R) : R :=
  let r := fl (sqrt (fl (square64 x + square64 y))) in
  let a := fl (r / fl (2 * Fp)) in
  let b := fl (r / fl (2 * F)) in
  fl (d_z * fl (fl (fl (1 - square64 a) / fl (1 + square64 a)) + fl (fl (1 - square64 b) / fl (1 + square64 b)))).

(** telgeometry.py:208-215 [block_manual(pr, sr, a, L)](x, y): comparisons and stores are exact. *)
Definition block_manual64 (pr sr a L x y : R) : R :=
  let s := fl (square64 x + square64 y) in
  let t := fl (sr + L) in
  let b1 := if Rltb s (square64 pr) && Rltb (square64 sr) s then 1 else 0 in
  let b2 := if Rltb (- t) x && Rltb x t && Rltb (- a) y && Rltb y a then 0 else b1 in
  if Rltb (- t) y && Rltb y t && Rltb (- a) x && Rltb x a then 0 else b2.

(** A product of a finite number and a sum with it, rounded; infinities and NaN as in MAperture.v. *)
Definition nfl (a : num) : num := match a with Fin x => Fin (fl x) | _ => a end.

(** aperture.py:114-139 [illum_parabolic(x, y, I_coeff, pr)]. *)
Definition illum_parabolic64 (m : maths) (I : list R) (pr : R) : res (R -> R -> R) :=
  match I with
  | [i_amp; c_dB; q; x0; y0] =>
      let c := m_pow10 m (fl (c_dB / 20)) in
      Ok (fun x y =>
        let r := fl (sqrt (fl (square64 (fl (x - x0)) + square64 (fl (y - y0))))) in
        nan_to_num (nfl (nmul (Fin i_amp)
          (nfl (nadd (Fin c) (nfl (nmul (Fin (fl (1 - c))) (m_pow m (fl (1 - square64 (fl (r / pr)))) q))))))))
  | _ => Err ValueError
  end.

(** aperture.py:415-436 [aperture(x, y, I_coeff, K_coeff, d_z, wavel, illum_func, telgeo)]: [phi * 1j] is exact, np.exp of
    it is the cosine and the sine, and the product of a real and a complex array has the rounded products as its parts.
    [tel] and [illum] are the functions in binary64. *)
Definition aperture64 (m : maths) (illum : list R -> R -> res (R -> R -> R)) (tel : telgeo) (I K : list R) (d_z wavel : R) : res (R -> R -> C) :=
  let pr := tel_pr tel in
  bind (wavefront64 (m_lm m) K) (fun W =>
  bind (illum I pr) (fun Ea =>
  Ok (fun x y =>
    let '(r, t) := cart2pol64 (m_atan2 m) x y in
    let phi := fl (fl (fl (W (fl (r / pr)) t + fl (opd_func tel x y d_z / wavel)) * 2) * fl PI) in
    let A := fl (block_dist tel x y * Ea x y) in
    (fl (A * lm_cos (m_lm m) phi), fl (A * lm_sin (m_lm m) phi))))).

(** aperture.py:514-556 [radiation_pattern]; [x[1]] raises IndexError for fewer than two samples. *)
Definition radiation_pattern64 (m : maths) (illum : list R -> R -> res (R -> R -> R)) (tel : telgeo) (I K : list R) (d_z wavel : R) (N : nat) (bf : R)
  : res (list R * list R * list (list C)) :=
  let B := fl (tel_pr tel * bf) in
  let x := map (linspace64 (- B) B N) (seq 0 N) in
  let axis := map (u_axis64 (tel_pr tel) bf wavel N) (seq 0 N) in
  bind (py_get x 1) (fun _ =>
  bind (aperture64 m illum tel I K d_z wavel) (fun E =>
  Ok (axis, axis, fftshift2 (m_fft m (map2d (fun '(a, b) => E a b) (meshgrid x x)))))).

(** core.py:108 [np.abs(F) ** 2]. *)
Definition power_pattern64 (m : maths) (F : list (list C)) : list (list R) := map2d (fun z => square64 (m_abs m z)) F.
