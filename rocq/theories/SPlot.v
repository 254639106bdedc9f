(** What a reader sees in a figure: the value shown at a point of an image, and
    the name printed for a fit parameter. *)
From Coq Require Import String Ascii List Sorted.
From Verif Require Import PyBase Num MMath MAperture MRad MCore MFs MOut MPlot SZernike SMath SAct.
From Coquelicot Require Import Complex.
Import ListNotations.
Open Scope R_scope.
Open Scope string_scope.
Open Scope list_scope.

(** The image covers its extent with equal rectangular cells, one per array
    element; row 0 is at the bottom for origin 'lower' and at the top otherwise.
    [shows im x y v]: the point (x, y) lies inside the cell of an element of value v. *)
Definition shows (im : image) (x y : R) (v : option num) : Prop :=
  let rows := length (im_data im) in
  let cols := ncols (im_data im) in
  let w := (im_x1 im - im_x0 im) / INR cols in
  let h := (im_y1 im - im_y0 im) / INR rows in
  exists r c, (r < rows)%nat /\ (c < cols)%nat /\ nth_error (nth r (im_data im) []) c = Some v /\
    im_x0 im + INR c * w < x < im_x0 im + INR (S c) * w /\
    let r' := if im_lower im then r else (rows - 1 - r)%nat in
    im_y0 im + INR r' * h < y < im_y0 im + INR (S r') * h.

(** Name of parameter number q: illumination amplitude, taper, shape and offsets,
    then the Zernike coefficients in the order of coeff_pos. *)
Definition names_parameter (q : nat) (s : string) : Prop :=
  (q = 0%nat /\ s = "$A_{E_\mathrm{a}}$") \/ (q = 1%nat /\ s = "$c_\mathrm{dB}$") \/ (q = 2%nat /\ s = "q") \/
  (q = 3%nat /\ s = "$x_0$") \/ (q = 4%nat /\ s = "$y_0$") \/
  exists i l, admissible (Z.of_nat i) l /\ q = (5 + coeff_pos i l)%nat /\ s = "$K_{" ^^ decZ (Z.of_nat i) ^^ "\," ^^ decZ l ^^ "}$".

(** The smallest and the largest of a set of numbers given by a predicate. *)
Definition extent_of (P : R -> Prop) (a b : R) : Prop := P a /\ P b /\ forall x, P x -> a <= x <= b.

(** Within half a cell of an axis from a to b with n cells. *)
Definition half_cell (a b : R) (n : nat) (x x' : R) : Prop := Rabs (x - x') <= (b - a) / (2 * INR n).

(** Middle of the cell of array element (row r, column c). *)
Definition cell_centre (im : image) (r c : nat) : R * R :=
  let rows := length (im_data im) in
  let cols := ncols (im_data im) in
  let r' := if im_lower im then r else (rows - 1 - r)%nat in
  (im_x0 im + (INR c + 1 / 2) * ((im_x1 im - im_x0 im) / INR cols), im_y0 im + (INR r' + 1 / 2) * ((im_y1 im - im_y0 im) / INR rows)).

(** A rows x cols array with given elements. *)
Definition array_of {A} (m : list (list A)) (rows cols : nat) (f : nat -> nat -> A) : Prop :=
  rect rows cols m /\ forall r c, (r < rows)%nat -> (c < cols)%nat -> nth_error (nth r m []) c = Some (f r c).

(** The panel shows the samples z(r, c) taken at (x_c, y_r): contour lines drawn
    at exactly these coordinates, and an image with nothing masked in which the
    cell of each sample lies within half a cell of the sample's coordinates. *)
Definition portrays (pn : panel) (x y : list R) (z : nat -> nat -> num) : Prop :=
  let im := pn_image pn in
  (exists ct, pn_contour pn = Some ct /\ ct_x ct = x /\ ct_y ct = y /\ array_of (ct_z ct) (length y) (length x) z) /\
  array_of (im_data im) (length y) (length x) (fun r c => Some (z r c)) /\
  im_lower im = true /\
  forall r c, (r < length y)%nat -> (c < length x)%nat ->
    half_cell (im_x0 im) (im_x1 im) (length x) (fst (cell_centre im r c)) (nth c x 0) /\
    half_cell (im_y0 im) (im_y1 im) (length y) (snd (cell_centre im r c)) (nth r y 0).

(** A map scaled to run from 0 to 1 (0 everywhere when it is constant). *)
Definition scaled (mn mx x : R) : R := if Req_EM_T mn mx then 0 else (x - mn) / (mx - mn).

(** The panel shows the power pattern of the aperture at radial offset d: the
    squared modulus of the radiation pattern, scaled, over the wave-vector axes
    in the chosen angle unit, cut at the limits [lims] given in radians. *)
Definition shows_beam (fmt : R -> string) (I K : list R) (wavel : R) (illum : list R -> R -> res (R -> R -> R)) (tel : telgeo) (N : nat) (bf : R) (g : angle_unit)
    (pn : panel) (first : bool) (d : R) (lims : R * R * (R * R)) : Prop :=
  let k := au_per_rad g in
  exists u v F mn mx, radiation_pattern illum tel I K d wavel N bf = Ok (u, v, F) /\
    extent_of (fun x => exists r c, (r < N)%nat /\ (c < N)%nat /\ x = Cmod (at2 F r c) ^ 2) mn mx /\
    portrays pn (map (Rmult k) u) (map (Rmult k) v) (fun r c => Fin (scaled mn mx (Cmod (at2 F r c) ^ 2))) /\
    pn_title pn = "$P_{\textrm{\scriptsize{norm}}}(u,v)$ $d_z=" ^^ fmt d ^^ "$ cm" /\
    pn_xlabel pn = "$u$ " ^^ au_name g /\ pn_ylabel pn = (if first then "$v$ " ^^ au_name g else "") /\
    im_scale (pn_image pn) = Some (Fin 0, Fin (if Req_EM_T mn mx then 0 else 1)) /\
    pn_xlim pn = Some (k * fst (fst lims), k * snd (fst lims)) /\ pn_ylim pn = Some (k * fst (snd lims), k * snd (snd lims)).

(** Limits of the figure: as given, else eight beam widths 1.22 wavel / (2 pr) to
    each side of the first maximum of the pattern at the second radial offset. *)
Definition limits_of (I K : list R) (wavel : R) (illum : list R -> R -> res (R -> R -> R)) (tel : telgeo) (N : nat) (bf : R) (d1 : R)
    (plim : option (R * R * (R * R))) (lims : R * R * (R * R)) : Prop :=
  match plim with
  | Some p => lims = p
  | None => exists u v F r c, radiation_pattern illum tel I K d1 wavel N bf = Ok (u, v, F) /\ (r < N)%nat /\ (c < N)%nat /\
      (forall r' c', (r' < N)%nat -> (c' < N)%nat -> Cmod (at2 F r' c') <= Cmod (at2 F r c) /\
         ((r' < r)%nat \/ (r' = r /\ (c' < c)%nat) -> Cmod (at2 F r' c') < Cmod (at2 F r c))) /\
      let h := 8 * (1.22 * wavel / (2 * tel_pr tel)) in
      lims = ((nth c u 0 - h, nth c u 0 + h), (nth r v 0 - h, nth r v 0 + h))
  end.

(** A row of data scaled to run from 0 to 1; a row with a value that is not finite
    becomes zero. *)
Definition normalised (row b : list num) : Prop :=
  (forall v, row = map Fin v -> exists mn mx, extent_of (fun t => In t v) mn mx /\ b = map Fin (map (scaled mn mx) v)) /\
  ((exists p, In p row /\ ~ finite p) -> b = map (fun _ => Fin 0) row).

(** The panel shows the data b taken at the scattered points (u, v), brought by the
    interpolation [gd] onto a resolution x resolution grid over their bounding box. *)
Definition shows_data (gd : list R -> list R -> list num -> list R -> list R -> list (list num)) (fmt : R -> string) (resolution : nat) (g : angle_unit)
    (pn : panel) (first : bool) (u v : list R) (b : list num) (d : R) : Prop :=
  let ku := map (Rmult (au_per_rad g)) u in
  let kv := map (Rmult (au_per_rad g)) v in
  exists ua ub va vb, extent_of (fun t => In t ku) ua ub /\ extent_of (fun t => In t kv) va vb /\
    let x := linspace ua ub resolution in
    let y := linspace va vb resolution in
    let z := gd ku kv b x y in
    portrays pn x y (elem NaN z) /\
    im_x0 (pn_image pn) = ua /\ im_x1 (pn_image pn) = ub /\ im_y0 (pn_image pn) = va /\ im_y1 (pn_image pn) = vb /\
    pn_title pn = "$P_{\textrm{\scriptsize{norm}}}(u,v)$ $d_z=" ^^ fmt d ^^ "$ cm" /\
    pn_xlabel pn = "$u$ " ^^ au_name g /\ pn_ylabel pn = (if first then "$v$ " ^^ au_name g else "") /\
    pn_xlim pn = None /\ pn_ylim pn = None /\
    forall w, concat z = map Fin w -> exists mn mx, extent_of (fun t => In t w) mn mx /\ im_scale (pn_image pn) = Some (Fin mn, Fin mx).

(** What the colour bar of a phase map must say. *)
Definition phase_label (piston tilt : bool) : string :=
  match piston, tilt with
  | true, true => "$\varphi(x, y)$ amplitude rad"
  | false, true => "$\varphi_{\scriptsize{\textrm{no-piston}}}(x,y)$ amplitude rad"
  | true, false => "$\varphi_{\scriptsize{\textrm{no-tilt}}}(x,y)$ amplitude rad"
  | false, false => "$\varphi_{\scriptsize{\textrm{no-piston, no-tilt}}}(x,y)$ amplitude rad"
  end.

(** The directory [d] holds the results of a run at order n: parameters, run
    information, data, residual and the two matrices. *)
Definition stored_run (s : fs) (d : path) (n : nat) (rows : list (string * R * R)) (i : run_info) (beam res_n : list (list num)) (u v : list (list R)) (cov corr : list (list num)) : Prop :=
  let csv f m := exists h, s (d ++ [f]) = Some (File (Csv h (A2 m))) in
  s (d ++ ["fitpar_n" ^^ dec n ^^ ".csv"]) = Some (File (Params rows)) /\ s (d ++ ["pyoof_info.yml"]) = Some (File (Info i)) /\
  csv "beam_data.csv" beam /\ csv ("res_n" ^^ dec n ^^ ".csv") res_n /\ csv "u_data.csv" (map (map Fin) u) /\ csv "v_data.csv" (map (map Fin) v) /\
  csv ("cov_n" ^^ dec n ^^ ".csv") cov /\ csv ("corr_n" ^^ dec n ^^ ".csv") corr.

(** At least two rows and two columns (what np.genfromtxt gives back as a matrix). *)
Definition matrix2 {A} (m : list (list A)) : Prop := (2 <= length m)%nat /\ (2 <= ncols m)%nat.

(** The figures of one order in terms of the other plot functions: the observed
    maps (first order only), the fitted beams, the phase without piston and tilt,
    the residuals, the covariance and the correlation matrix. *)
Definition figures_of (gd : list R -> list R -> list num -> list R -> list R -> list (list num)) (pt : printers) (strict : bool)
    (illum : list R -> R -> res (R -> R -> R)) (tel : telgeo) (g : angle_unit) (plim : option (R * R * (R * R))) (n : nat)
    (params : list R) (i : run_info) (beam res_n : list (list num)) (u v : list (list R)) (cov corr : list (list num)) (figs : list figure) : Prop :=
  let el := pt_el pt (ri_meanel i) in
  exists f_obs f_beam f_phase f_res f_cov f_corr d2,
    figs = (if Nat.eqb n 1 then [f_obs] else []) ++ [f_beam; f_phase; f_res; f_cov; f_corr] /\
    (n = 1%nat -> plot_beam_data gd (pt_cm pt) u v beam (ri_d_z i) (ri_resolution i) g (ri_object i ^^ " observed power pattern $\alpha=" ^^ el ^^ "$ deg") false = Ok f_obs) /\
    plot_beam (pt_cm pt) (firstn 5 params) (skipn 5 params) (ri_d_z i) (ri_wavel i) illum tel (ri_resolution i) (ri_box_factor i) plim g
      (ri_object i ^^ " fit power pattern  $n=" ^^ dec n ^^ "$ $\alpha=" ^^ el ^^ "$ degrees") = Ok f_beam /\
    nth_error (ri_d_z i) 2 = Some d2 /\
    plot_phase (skipn 5 params) (ri_pr i) false false (ri_object i ^^ " phase-error $d_z=\pm " ^^ pt_cm pt d2 ^^ "$ cm $n=" ^^ dec n ^^ "$ $\alpha=" ^^ el ^^ "$ deg") = Ok f_phase /\
    plot_beam_data gd (pt_cm pt) u v res_n (ri_d_z i) (ri_resolution i) g (ri_object i ^^ " residual $n=" ^^ dec n ^^ "$") true = Ok f_res /\
    plot_variance strict cov n true "$\sigma_{ij}^2$" (ri_object i ^^ " variance-covariance matrix $n=" ^^ dec n ^^ "$") = Ok f_cov /\
    plot_variance strict corr n true "$\rho_{ij}$" (ri_object i ^^ " correlation matrix $n=" ^^ dec n ^^ "$") = Ok f_corr.

(** The positions, in increasing order, of the parameters that are not excluded (a
    negative excluded index counts from the end). *)
Definition fitted_positions (total : nat) (excluded : list Z) (idx : list nat) : Prop :=
  StronglySorted lt idx /\
  forall q, In q idx <-> (q < total)%nat /\ ~ In (Z.of_nat q) excluded /\ ~ In (Z.of_nat q - Z.of_nat total)%Z excluded.
