(** Model of pyoof/plot_routines.py: what each figure shows.  A figure is the list
    of its panels; a panel is the arguments of its imshow and contour calls, its
    labels, limits and ticks.  Colours, fonts, layout and the colour bars' ticks are
    not modelled.  matplotlib's own checks are modelled as far as noted. *)
From Coq Require Import String Ascii List.
From Flocq Require Import Core.Raux.
From Verif Require Import PyBase Num MZernike MMath MAperture MRad MCore MFs MAct MAux MOut.
From Coquelicot Require Import Complex.
Import ListNotations.
Open Scope R_scope.
Open Scope string_scope.
Open Scope list_scope.
Open Scope prog_scope.

(** [imshow(X, extent, vmin, vmax, origin)]; None is a masked element.  The style
    file set on import, pyoof/data/pyoof.mplstyle:34, makes 'lower' the default origin. *)
Record image := { im_data : list (list (option num)); im_x0 : R; im_x1 : R; im_y0 : R; im_y1 : R;
  im_lower : bool; im_scale : option (num * num) }.
(** [contour(x, y, z, levels)]. *)
Record contours := { ct_x : list R; ct_y : list R; ct_z : list (list num); ct_levels : list num }.
Record panel := { pn_image : image; pn_contour : option contours; pn_title : string; pn_xlabel : string; pn_ylabel : string;
  pn_bar : string; pn_xlim : option (R * R); pn_ylim : option (R * R);
  pn_xticks : list (R * string); pn_yticks : list (R * string) }.
Record figure := { fg_size : R * R; fg_title : string; fg_panels : list panel }.

(** matplotlib's contour: z at least 2 x 2 and x, y of matching length
    (TypeError).  Levels outside the range of z draw nothing; when none is inside,
    matplotlib warns and goes on, so that equal levels do not raise. *)
Definition contour (x y : list R) (z : list (list num)) (levels : list num) : res contours :=
  if (Nat.leb 2 (length z) && Nat.leb 2 (ncols z) && Nat.eqb (length x) (ncols z) && Nat.eqb (length y) (length z))%bool
  then Ok {| ct_x := x; ct_y := y; ct_z := z; ct_levels := levels |}
  else Err TypeError.

(** [np.linspace(a, b, n)] of numpy floats; limits that are not finite give NaN. *)
Definition nlinspace (a b : num) (n : nat) : list num :=
  match a, b with Fin x, Fin y => map Fin (linspace x y n) | _, _ => repeat NaN n end.

(** An angle unit: its printed name and how many of it make a radian. *)
Record angle_unit := { au_name : string; au_per_rad : R }.
Definition to_unit (g : angle_unit) (l : list R) : list R := map (Rmult (au_per_rad g)) l.

Definition shown_all (m : list (list num)) : list (list (option num)) := map2d Some m.
Definition fins (m : list (list R)) : list (list num) := map2d Fin m.

(** math_functions.py:12-38 [norm(P)] of a 2-D array, axis=None. *)
Definition norm2 (P : list (list R)) : res (list (list R)) :=
  bind (np_min (map Fin (concat P))) (fun mn => bind (np_max (map Fin (concat P))) (fun mx =>
  Ok (map2d (fun p => norm_by mn mx (Fin p)) P))).

(** plot_routines.py:134-137, 265-268: panel titles; [fmt d] prints round(100 d, 3). *)
Definition beam_title (fmt : R -> string) (d : R) : string :=
  "$P_{\textrm{\scriptsize{norm}}}(u,v)$ $d_z=" ^^ fmt d ^^ "$ cm".
Definition beam_titles (fmt : R -> string) (d_z : list R) : res (list string) :=
  mapM (fun i => bind (py_get d_z i) (fun d => Ok (beam_title fmt d))) [0; 1; 2]%nat.

(** plot_routines.py:158-197, 281-331: one beam map over its axes (in the angle unit). *)
Definition beam_panel (g : angle_unit) (first : bool) (title : string) (u v : list R) (z : list (list num)) (xlim ylim : option (R * R)) : res panel :=
  bind (np_min (concat z)) (fun vmin => bind (np_max (concat z)) (fun vmax =>
  bind (arr_min u) (fun u0 => bind (arr_max u) (fun u1 => bind (arr_min v) (fun v0 => bind (arr_max v) (fun v1 =>
  bind (contour u v z (nlinspace vmin vmax 10)) (fun ct =>
  Ok {| pn_image := {| im_data := shown_all z; im_x0 := u0; im_x1 := u1; im_y0 := v0; im_y1 := v1;
                       im_lower := true; im_scale := Some (vmin, vmax) |};
        pn_contour := Some ct; pn_title := title; pn_xlabel := "$u$ " ^^ au_name g;
        pn_ylabel := if first then "$v$ " ^^ au_name g else ""; pn_bar := "Amplitude [arb]";
        pn_xlim := xlim; pn_ylim := ylim; pn_xticks := []; pn_yticks := [] |}))))))).

(** plot_routines.py:118-121: position of the first maximum in row-major order. *)
Definition first_max (u v : list R) (P : list (list R)) : res (R * R) :=
  bind (arr_max (concat P)) (fun m =>
  match filter (fun '(_, p) => Reqb p m) (combine (concat (meshgrid u v)) (concat P)) with
  | ((a, b), _) :: _ => Ok (a, b) | [] => Err IndexError end).

(** plot_routines.py:93-109: normalised pattern of one radial offset. *)
Definition one_beam (illum : list R -> R -> res (R -> R -> R)) (tel : telgeo) (I K : list R) (wavel : R) (resolution : nat) (box_factor d : R)
  : res (list R * list R * list (list R)) :=
  bind (radiation_pattern illum tel I K d wavel resolution box_factor) (fun '(u, v, F) =>
  bind (norm2 (power_pattern F)) (fun P => Ok (u, v, P))).

(** plot_routines.py:112-129: the limits, in radians, when none are given. *)
Definition default_limits (tel : telgeo) (wavel : R) (beams : list (list R * list R * list (list R))) : res (R * R * (R * R)) :=
  bind (py_get beams 1) (fun '(u, v, P) =>
  bind (first_max u v P) (fun '(u_offset, v_offset) =>
  let bw := 1.22 * wavel / (2 * tel_pr tel) in
  let s_bw := bw * 8 in
  Ok ((- s_bw + u_offset, s_bw + u_offset), (- s_bw + v_offset, s_bw + v_offset)))).

(** plot_routines.py:26-197 [plot_beam]; plim in radians. *)
Definition plot_beam (fmt : R -> string) (I K d_z : list R) (wavel : R) (illum : list R -> R -> res (R -> R -> R)) (tel : telgeo)
    (resolution : nat) (box_factor : R) (plim : option (R * R * (R * R))) (g : angle_unit) (title : string) : res figure :=
  bind (mapM (one_beam illum tel I K wavel resolution box_factor) d_z) (fun beams =>
  bind (match plim with Some p => Ok p | None => default_limits tel wavel beams end) (fun '((ua, ub), (va, vb)) =>
  let k := au_per_rad g in
  let xlim := (k * ua, k * ub) in
  let ylim := (k * va, k * vb) in
  bind (beam_titles fmt d_z) (fun titles =>
  bind (uv_ratio 1 1 [fst xlim; snd xlim] [fst ylim; snd ylim]) (fun size =>
  bind (mapM (fun i =>
     bind (py_get beams i) (fun '(u, v, P) => bind (py_get titles i) (fun t =>
     beam_panel g (Nat.eqb i 0) t (to_unit g u) (to_unit g v) (fins P) (Some xlim) (Some ylim)))) [0; 1; 2]%nat) (fun panels =>
  Ok {| fg_size := size; fg_title := title; fg_panels := panels |}))))).

(** plot_routines.py:200-332 [plot_beam_data].  [griddata u v values u_ng v_ng] is
    scipy.interpolate.griddata(method='cubic') on the product grid.  u_data,
    v_data in radians. *)
Definition plot_beam_data (griddata : list R -> list R -> list num -> list R -> list R -> list (list num)) (fmt : R -> string)
    (u_data v_data : list (list R)) (beam_data : list (list num)) (d_z : list R) (resolution : nat) (g : angle_unit) (title : string) (res_mode : bool) : res figure :=
  bind (if res_mode then Ok beam_data else bind (norm_rows beam_data) (fun b => Ok (fins b))) (fun beam =>
  bind (beam_titles fmt d_z) (fun titles =>
  bind (py_get u_data 0) (fun u0 => bind (py_get v_data 0) (fun v0 =>
  bind (uv_ratio 1 1 u0 v0) (fun size =>
  bind (mapM (fun i =>
     bind (py_get u_data i) (fun u => bind (py_get v_data i) (fun v => bind (py_get beam i) (fun b => bind (py_get titles i) (fun t =>
     let ua := to_unit g u in let va := to_unit g v in
     bind (arr_min ua) (fun umin => bind (arr_max ua) (fun umax => bind (arr_min va) (fun vmin => bind (arr_max va) (fun vmax =>
     let u_ng := linspace umin umax resolution in
     let v_ng := linspace vmin vmax resolution in
     beam_panel g (Nat.eqb i 0) t u_ng v_ng (griddata ua va b u_ng v_ng) None None))))))))) [0; 1; 2]%nat) (fun panels =>
  Ok {| fg_size := size; fg_title := title; fg_panels := panels |})))))).

(** plot_routines.py:372-388: label of the colour bar. *)
Definition phase_bar (piston tilt : bool) : string :=
  if (negb tilt && negb piston)%bool then "$\varphi_{\scriptsize{\textrm{no-piston, no-tilt}}}(x,y)$ amplitude rad"
  else if (negb tilt && piston)%bool then "$\varphi_{\scriptsize{\textrm{no-tilt}}}(x,y)$ amplitude rad"
  else if (tilt && negb piston)%bool then "$\varphi_{\scriptsize{\textrm{no-piston}}}(x,y)$ amplitude rad"
  else "$\varphi(x, y)$ amplitude rad".

(** plot_routines.py:390-420, 448-478: a map over the square [-pr, pr]^2. *)
Definition phase_figure (bar title : string) (pr : R) (x y : list R) (z : list (list num)) : res figure :=
  bind (contour x y z (nlinspace (Fin (-2)) (Fin 2) 9)) (fun ct =>
  Ok {| fg_size := (6, 5.8); fg_title := ""; fg_panels := [
    {| pn_image := {| im_data := shown_all z; im_x0 := - pr; im_x1 := pr; im_y0 := - pr; im_y1 := pr; im_lower := true; im_scale := None |};
       pn_contour := Some ct; pn_title := title; pn_xlabel := "$x$ m"; pn_ylabel := "$y$ m"; pn_bar := bar;
       pn_xlim := None; pn_ylim := None; pn_xticks := []; pn_yticks := [] |}] |}).

(** plot_routines.py:335-417 [plot_phase]. *)
Definition plot_phase (K : list R) (pr : R) (piston tilt : bool) (title : string) : res figure :=
  bind (phase K pr piston tilt 1000) (fun '(x, y, ph) => phase_figure (phase_bar piston tilt) title pr x y (fins ph)).

(** plot_routines.py:420-478 [plot_phase_data]: both axes have phase_data.shape[0] samples. *)
Definition plot_phase_data (phase_data : list (list num)) (pr : R) (title : string) : res figure :=
  let x := linspace (- pr) pr (length phase_data) in
  phase_figure "$\varphi(x, y)$ amplitude rad" title pr x x phase_data.

(** plot_routines.py:515-524: names of the parameters. *)
Definition label_names (n : nat) : list string :=
  ["$A_{E_\mathrm{a}}$"; "$c_\mathrm{dB}$"; "q"; "$x_0$"; "$y_0$"]
  ++ map (fun '(L, N) => "$K_{" ^^ decZ N ^^ "\," ^^ decZ L ^^ "}$") (ln_list n).

(** [int(i)] of a float. *)
Definition py_int (a : num) : res Z :=
  match a with Fin x => Ok (Ztrunc x) | NaN => Err ValueError | _ => Err OverflowError end.

(** np.tri(n, k=k): 1 where column <= row + k. *)
Definition tri (n : nat) (k : Z) : list (list bool) :=
  map (fun i => map (fun j => Z.leb (Z.of_nat j) (Z.of_nat i + k)) (seq 0 n)) (seq 0 n).

(** set_xticks / set_xticklabels: with [strict] (matplotlib 3.3 and later) labels
    must be as many as ticks, else ValueError; before, labels are used from the
    first tick on and the remaining ticks get none. *)
Definition ticks (strict : bool) (pos : list R) (labels : list string) : res (list (R * string)) :=
  if (strict && negb (Nat.eqb (length labels) (length pos)))%bool then Err ValueError
  else Ok (combine pos (labels ++ repeat "" (length pos))).

(** plot_routines.py:481-577 [plot_variance]. *)
Definition plot_variance (strict : bool) (matrix : list (list num)) (order : nat) (diag : bool) (cbtitle title : string) : res figure :=
  let names := label_names order in
  bind (py_get matrix 0) (fun header =>
  bind (mapM py_int header) (fun used =>
  let m := skipn 1 matrix in
  let x_ticks := length m in
  let y_ticks := length header in
  bind (mapM (fun q => bind (np_index (length names) q) (fun i => py_get names i)) used) (fun all =>
  let k := if diag then (-1)%Z else 0%Z in
  let labels_x := if diag then all else removelast all in
  let labels_y := if diag then rev labels_x else removelast (rev labels_x) in
  let mask := tri x_ticks k in
  if negb (Nat.eqb (x_ticks * y_ticks) (x_ticks * x_ticks)) then Err MaskError else
  let masked := map2 (map2 (fun (b : bool) a => if b then None else Some a)) mask m in
  let shown := transpose_n (length header) masked in
  bind (np_max (concat m)) (fun vmax => bind (np_min (concat m)) (fun vmin =>
  bind (ticks strict (map (fun i => INR i + 1 / 2) (seq 0 x_ticks)) labels_x) (fun xt =>
  bind (ticks strict (map (fun i => INR i + 1 / 2) (seq 0 y_ticks)) labels_y) (fun yt =>
  Ok {| fg_size := (6.4, 4.8); fg_title := ""; fg_panels := [
    {| pn_image := {| im_data := shown; im_x0 := 0; im_x1 := INR x_ticks; im_y0 := 0; im_y1 := INR y_ticks; im_lower := false; im_scale := Some (vmin, vmax) |};
       pn_contour := None; pn_title := title; pn_xlabel := ""; pn_ylabel := ""; pn_bar := cbtitle;
       pn_xlim := None; pn_ylim := None; pn_xticks := xt; pn_yticks := yt |}] |}))))))).

(** [np.genfromtxt(path)] of a stored 2-D array.  An array with a single row or a
    single column comes back one-dimensional, and indexing or iterating it as a
    matrix raises (IndexError or TypeError; TypeError here). *)
Definition read_matrix (p : path) : prog (list (list num)) :=
  d <- callE (Read p) ;;
  match d with
  | Csv _ (A2 m) => if (Nat.leb 2 (length m) && Nat.leb 2 (ncols m))%bool then Ret m else Raise TypeError
  | _ => Raise TypeError
  end.
Definition read_info (p : path) : prog run_info :=
  d <- callE (Read p) ;;
  match d with Info i => Ret i | _ => Raise KeyError end.
Definition reals (m : list (list num)) : list (list R) := map2d nan_to_num m.

(** Printing of numbers in titles: round(meanel, 2), d_z in cm, the order. *)
Record printers := { pt_el : R -> string; pt_cm : R -> string }.

(** plot_routines.py:640-754 [plot_fit_path], with the figures it draws, in the
    order data (only for order 1), beam, phase, residual, covariance, correlation.
    The function itself returns None although its docstring promises the figures:
    they can be seen only in the files written when save=True.  The stored
    coordinates are finite ([reals] reads them back exactly). *)
Definition fit_figures (griddata : list R -> list R -> list num -> list R -> list R -> list (list num)) (pt : printers) (strict : bool)
    (illum : list R -> R -> res (R -> R -> R)) (tel : telgeo) (g : angle_unit) (plim : option (R * R * (R * R))) (n : nat)
    (params : list R) (i : run_info) (beam res_n u v cov corr : list (list num)) : res (list figure) :=
  let ob := ri_object i in
  let el := pt_el pt (ri_meanel i) in
  let K := skipn 5 params in
  bind (if Nat.eqb n 1 then
          bind (plot_beam_data griddata (pt_cm pt) (reals u) (reals v) beam (ri_d_z i) (ri_resolution i) g
                 (ob ^^ " observed power pattern $\alpha=" ^^ el ^^ "$ deg") false) (fun f => Ok [f])
        else Ok []) (fun fig_data =>
  bind (plot_beam (pt_cm pt) (firstn 5 params) K (ri_d_z i) (ri_wavel i) illum tel (ri_resolution i) (ri_box_factor i) plim g
         (ob ^^ " fit power pattern  $n=" ^^ dec n ^^ "$ $\alpha=" ^^ el ^^ "$ degrees")) (fun fig_beam =>
  bind (py_get (ri_d_z i) 2) (fun d2 =>
  bind (plot_phase K (ri_pr i) false false
         (ob ^^ " phase-error $d_z=\pm " ^^ pt_cm pt d2 ^^ "$ cm $n=" ^^ dec n ^^ "$ $\alpha=" ^^ el ^^ "$ deg")) (fun fig_phase =>
  bind (plot_beam_data griddata (pt_cm pt) (reals u) (reals v) res_n (ri_d_z i) (ri_resolution i) g
         (ob ^^ " residual $n=" ^^ dec n ^^ "$") true) (fun fig_res =>
  bind (plot_variance strict cov n true "$\sigma_{ij}^2$" (ob ^^ " variance-covariance matrix $n=" ^^ dec n ^^ "$")) (fun fig_cov =>
  bind (plot_variance strict corr n true "$\rho_{ij}$" (ob ^^ " correlation matrix $n=" ^^ dec n ^^ "$")) (fun fig_corr =>
  Ok (fig_data ++ [fig_beam; fig_phase; fig_res; fig_cov; fig_corr])))))))).

Definition draw_fit_path (griddata : list R -> list R -> list num -> list R -> list R -> list (list num)) (pt : printers) (strict : bool)
    (name_dir : path) (n : nat) (illum : list R -> R -> res (R -> R -> R)) (tel : telgeo) (g : angle_unit) (plim : option (R * R * (R * R))) (save : bool)
  : prog (list figure) :=
  let plots := (name_dir ++ ["plots"])%list in
  let f x := (name_dir ++ [x])%list in
  b <- call (Exists plots) ;;
  (if b then Ret tt else makedirs plots false) ;;;
  params <- read_parfit (f (fitpar_name n)) ;;
  i <- read_info (f "pyoof_info.yml") ;;
  beam <- read_matrix (f "beam_data.csv") ;;
  res_n <- read_matrix (f ("res_n" ^^ dec n ^^ ".csv")) ;;
  u <- read_matrix (f "u_data.csv") ;;
  v <- read_matrix (f "v_data.csv") ;;
  cov <- read_matrix (f ("cov_n" ^^ dec n ^^ ".csv")) ;;
  corr <- read_matrix (f ("corr_n" ^^ dec n ^^ ".csv")) ;;
  figs <- lift (fit_figures griddata pt strict illum tel g plim n params i beam res_n u v cov corr) ;;
  (if save then write_pdfs plots (pdf_names n) else Ret tt) ;;;
  Ret figs.
