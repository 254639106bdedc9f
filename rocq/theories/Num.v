(** numpy floating-point values without rounding: a real number, +inf, -inf or
    NaN, with the IEEE rules for special values that the modelled code relies
    on.  Signed zeros are identified (a zero divisor counts as +0). *)
From Verif Require Import PyBase.
Open Scope R_scope.

Inductive num := Fin (r : R) | PInf | NInf | NaN.

Definition nneg (a : num) : num :=
  match a with Fin x => Fin (- x) | PInf => NInf | NInf => PInf | NaN => NaN end.

Definition nadd (a b : num) : num :=
  match a, b with
  | NaN, _ | _, NaN => NaN
  | Fin x, Fin y => Fin (x + y)
  | PInf, NInf | NInf, PInf => NaN
  | PInf, _ | _, PInf => PInf
  | NInf, _ | _, NInf => NInf
  end.
Definition nsub (a b : num) : num := nadd a (nneg b).

(** infinity with the sign of x; x = 0 gives NaN (0 * inf) *)
Definition inf_sign (x : R) : num :=
  if Rlt_dec 0 x then PInf else if Rlt_dec x 0 then NInf else NaN.

Definition nmul (a b : num) : num :=
  match a, b with
  | NaN, _ | _, NaN => NaN
  | Fin x, Fin y => Fin (x * y)
  | Fin x, PInf | PInf, Fin x => inf_sign x
  | Fin x, NInf | NInf, Fin x => nneg (inf_sign x)
  | PInf, PInf | NInf, NInf => PInf
  | PInf, NInf | NInf, PInf => NInf
  end.

Definition ndiv (a b : num) : num :=
  match a, b with
  | NaN, _ | _, NaN => NaN
  | Fin x, Fin y => if Req_EM_T y 0 then inf_sign x else Fin (x / y)
  | Fin _, (PInf | NInf) => Fin 0
  | PInf, Fin y => if Rle_dec 0 y then PInf else NInf
  | NInf, Fin y => if Rle_dec 0 y then NInf else PInf
  | (PInf | NInf), (PInf | NInf) => NaN
  end.

Definition nsqrt (a : num) : num :=
  match a with
  | Fin x => if Rle_dec 0 x then Fin (sqrt x) else NaN
  | PInf => PInf
  | NInf | NaN => NaN
  end.

Definition nabs (a : num) : num :=
  match a with Fin x => Fin (Rabs x) | PInf | NInf => PInf | NaN => NaN end.

Definition nsquare (a : num) : num := nmul a a.

(** Comparisons; any comparison with NaN is false. *)
Definition nlt (a b : num) : bool :=
  match a, b with
  | Fin x, Fin y => Rltb x y
  | NInf, (Fin _ | PInf) => true
  | Fin _, PInf => true
  | _, _ => false
  end.
Definition ngt (a b : num) : bool := nlt b a.
Definition nle (a b : num) : bool :=
  match a, b with
  | Fin x, Fin y => Rleb x y
  | NInf, (Fin _ | PInf | NInf) => true
  | (Fin _ | PInf), PInf => true
  | _, _ => false
  end.

Definition nisnan (a : num) : bool := match a with NaN => true | _ => false end.

(** numpy min/max of two: NaN propagates. *)
Definition nmin (a b : num) : num :=
  match a, b with
  | NaN, _ | _, NaN => NaN
  | _, _ => if nle a b then a else b
  end.
Definition nmax (a b : num) : num :=
  match a, b with
  | NaN, _ | _, NaN => NaN
  | _, _ => if nle a b then b else a
  end.

(** [np.nan_to_num]: NaN becomes 0, infinities the largest finite doubles. *)
Definition max_double : R := (2 - / 2 ^ 52) * 2 ^ 1023.
Definition nan_to_num (a : num) : R :=
  match a with Fin x => x | NaN => 0 | PInf => max_double | NInf => - max_double end.

(** [b ** q] of numpy floats for a finite base and exponent. *)
Definition is_integer (q : R) : bool := if Req_EM_T (IZR (Int_part q)) q then true else false.
Definition npow (b q : R) : num :=
  if Rlt_dec 0 b then Fin (Rpower b q)
  else if Req_EM_T b 0 then
         (if Rlt_dec 0 q then Fin 0 else if Req_EM_T q 0 then Fin 1 else PInf)
  else if is_integer q then Fin (powerRZ b (Int_part q)) else NaN.

(** [np.arctan] extended to infinities. *)
Definition natan (a : num) : num :=
  match a with Fin x => Fin (atan x) | PInf => Fin (PI / 2) | NInf => Fin (- (PI / 2)) | NaN => NaN end.

(** [np.nansum]: NaN counts as 0. *)
Definition nansum (l : list num) : num :=
  fold_left nadd (map (fun a => if nisnan a then Fin 0 else a) l) (Fin 0).

(** [np.clip(a, lo, hi)] = minimum(maximum(a, lo), hi) for real limits. *)
Definition nclip (a : num) (lo hi : R) : num := nmin (nmax a (Fin lo)) (Fin hi).
