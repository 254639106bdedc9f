(** Model of aperture.illum_gauss in IEEE binary64: the branches of MAperture.v with every numpy operation rounded.
    Simplifications: as in MFloat4.v. *)
From Coq Require Import List.
From Verif Require Import PyBase Num MAperture SFloat MFloat MFloat2 MFloat4.
Open Scope R_scope.

(** aperture.py:175-192 [illum_gauss(x, y, I_coeff, pr)]; [mexp] is np.exp, [msq] is [sigma ** 2] of one float (C's pow), the other
    squares are those of arrays, which numpy computes as products. *)
Definition illum_gauss64 (m : maths) (mexp msq : R -> R) (I : list R) (pr : R) : res (R -> R -> R) :=
  bind (unpack2 (firstn 2 I)) (fun '(i_amp, c_dB) =>
  bind (unpack2 (last2 I)) (fun '(x0, y0) =>
  let sigma := m_pow10 m (fl (c_dB / 20)) in
  let amp := fl (i_amp * fl (sqrt (fl (fl (2 * fl PI) * msq sigma)))) in
  let den := fl (2 * square64 (fl (sigma * pr))) in
  Ok (fun x y => fl (amp * mexp (fl (- fl (square64 (fl (x - x0)) + square64 (fl (y - y0))) / den)))))).
