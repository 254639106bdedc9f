#!/usr/bin/env python3
"""Writes properties.jsonl. One entry per property; edit here, rerun."""
import json, os
P=[]
def p(title, statement, quantifier, why, anchors):
    P.append(dict(id="C%02d"%(len(P)+1), title=title, statement=statement,
                  quantifier=quantifier, why_tests_cant=why, anchors=anchors))
Z="pyoof/zernike/zernike.py"; AP="pyoof/aperture/aperture.py"; MF="pyoof/math_functions.py"
TG="pyoof/telgeometry/telgeometry.py"; CO="pyoof/core.py"; AX="pyoof/aux_functions.py"
SI="pyoof/simulate_data.py"; AC="pyoof/actuator/actuator.py"; CF="pyoof/data/config_params.yml"
PL="pyoof/plot_routines.py"

p("Radial polynomials equal the documented Rodrigues formula",
  "zernike.R(n, m, rho) equals 1/(b! rho^m) (d/d rho^2)^b {(rho^2)^a (rho^2-1)^b}, a=(n+m)/2, b=(n-m)/2, the formula in its docstring.",
  "all integers n>=m>=0 with n-m even, all rho > 0",
  "the identity ranges over every order n and every real rho; tests fix one (n,m) and a grid.",
  [Z+":R"])
p("Radial polynomials are 1 at the rim, and only m=0 survives at the centre",
  "zernike.R(n, m, 1) = 1, and zernike.R(n, m, 0) = 0 for m>0 and (-1)^(n/2) for m=0.",
  "all integers n>=m>=0 with n-m even",
  "an alternating sum of factorials that must collapse to 1 for every order.", [Z+":R"])
p("Zernike values never exceed 1 in modulus on the dish",
  "|R(n,m,rho)| <= 1 and |U(n,l,rho,theta)| <= 1, hence |wavefront| <= sum |K_i| and |phase| <= 2 pi sum |K_i|.",
  "all orders n, all admissible l, all rho in [0,1], all theta, all coefficient vectors",
  "a sup over a continuum of points and unboundedly many orders.", [Z+":R",Z+":U",AP+":wavefront",AP+":phase"])
p("Zernike circle polynomials are orthogonal on the unit disk",
  "The integral over the unit disk of U(n,l)*U(n',l') is 0 unless (n,l)=(n',l'), and is pi*eps/(2(n+1)) (eps=2 if l=0, else 1) when they coincide; so they are orthogonal but NOT orthonormal as the docs say.",
  "all pairs of admissible indices (n,l),(n',l')",
  "integrals over a continuum for infinitely many index pairs.", [Z+":U","docs/zernike/index.rst"])
p("U validates its indices exactly as documented",
  "zernike.U raises TypeError exactly when l is not an int or n is not a non-negative int; otherwise it returns a value; for |l|>n it returns 0. (The documented 'n-|l| odd vanishes' does not hold: odd n-|l| is silently given a non-zero value.)",
  "all Python numbers given as n and l",
  "decision over the whole input type.", [Z+":U"])
p("Half-turn and reflection symmetry of U",
  "U(n,l,rho,theta+pi) = (-1)^l U(n,l,rho,theta), U(n,l,-rho,theta) = (-1)^n U(n,l,rho,theta), U(n,l,rho,-theta) = +U for l>=0 and -U for l<0, U(n,l,rho,theta+2pi)=U.",
  "all admissible (n,l), all real rho, theta", "for all reals and orders.", [Z+":U"])
p("The coefficient order enumerates every admissible (n,l) exactly once",
  "The list of (n,l) used for K_coeff of order n contains exactly the pairs with 0<=i<=n, |l|<=i, i-l even, each once, has (n+1)(n+2)/2 entries, K(i,l) sits at position (i(i+2)+l)/2, and the list for order n is a prefix of the list for any larger order.",
  "all orders n", "unbounded order.", [AP+":wavefront",AX+":store_data_ascii",PL+":plot_variance"])
p("wavefront accepts exactly triangular coefficient counts",
  "wavefront returns a value iff K_coeff.size = (n+1)(n+2)/2 for some n>=0, and then the order it infers is that n; any other positive size raises IndexError; size 0 raises AttributeError. The inferred order is also right in IEEE binary64 arithmetic for every size whose 8*size+1 is below 2^53.",
  "all coefficient vectors of every length", "every length; a float sqrt/truncation boundary.", [AP+":wavefront"])
p("wavefront is linear and stable under raising the order",
  "W(a K + b K') = a W(K) + b W(K'); appending zero coefficients to reach a higher order does not change W; a unit coefficient vector e_(n,l) gives exactly U(n,l).",
  "all coefficient vectors, scalars, points", "algebraic law over all inputs.", [AP+":wavefront"])
p("phase is zero outside the dish and 2 pi W inside",
  "Every pixel of the phase map with x^2+y^2>pr^2 is 0 and every other pixel is 2 pi times the wavefront at that pixel; the map is resolution x resolution; the caller's K_coeff is not modified.",
  "all coefficients, radii, resolutions, pixels, flags", "all pixels and inputs.", [AP+":phase"])
p("piston and tilt flags remove exactly those terms",
  "With piston=False the phase map does not depend on K(0,0); with tilt=False it does not depend on K(1,-1),K(1,1); switching tilt on adds exactly the plane 2 pi (K(1,-1) y + K(1,1) x)/pr inside the dish, switching piston on adds 2 pi K(0,0).",
  "all coefficient vectors, pixels, flags", "relational property between pairs of runs.", [AP+":phase"])
p("phase is independent of the dish size and linear in K",
  "phase maps for pr and c*pr (c>0) are identical; phase(a K + b K') = a phase(K) + b phase(K').",
  "all pr>0, c>0, coefficient vectors, resolutions", "relational, over reals.", [AP+":phase"])
p("norm maps every map onto [0,1]",
  "norm(P) has all values in [0,1]; if P is finite and not constant the minimum of P goes to 0, the maximum to 1 and order is preserved; a constant map and any map containing NaN become all zeros. For axis=1 this holds for each row, for axis=0 for each column.",
  "all arrays of finite/NaN values of any shape", "all arrays, NaN placement.", [MF+":norm"])
p("norm ignores gain and offset",
  "norm(g*P + o) = norm(P) for every g>0; norm(norm(P)) = norm(P).",
  "all finite arrays, gains, offsets", "relational over reals.", [MF+":norm"])
p("cart2pol is a right inverse of polar coordinates",
  "x = rho cos(theta), y = rho sin(theta), rho>=0, -pi<theta<=pi; and it inverts polar->cartesian for rho>0, theta in (-pi,pi].",
  "all real x,y", "all reals/quadrants.", [MF+":cart2pol"])
p("rms is the root mean square, and what it does with NaN",
  "rms(phase) >= 0; rms^2*size = sum of squares; rms(c*phase) = |c| rms(phase); 0 iff all zero; bounded by the largest modulus; rms is invariant under permutation. Without circ, NaN entries contribute 0 but still count in the divisor (a mean over non-NaN entries is refuted).",
  "all arrays", "all arrays and NaN placements.", [MF+":rms"])
p("rms with circ averages exactly the inscribed disk and overwrites the caller's array",
  "rms(phase, circ=True) equals the rms over the pixels whose normalised position satisfies X^2+Y^2<=1 (NaN pixels left out of sum and count); pixels outside have no influence; it needs a square array (else IndexError). It is NOT pure: the caller's array has NaN outside the disk afterwards; a second call gives the same answer.",
  "all square maps, histories of calls", "effect on caller state over call histories.", [MF+":rms",AP+":e_rs",AX+":table_pyoof_out"])
p("Ruze efficiency lies in (0,1]",
  "e_rs(phase) is in (0,1], equals 1 iff the rms is zero, and decreases when the phase map is scaled up.",
  "all phase maps", "for all maps.", [AP+":e_rs"])
p("co_matrices returns a valid covariance/correlation pair",
  "With more data points than parameters and independent Jacobian columns and non-zero residual: cov and corr are symmetric, diagonal of corr is 1, |corr_ij|<=1, cov is positive semidefinite and corr_ij = cov_ij/sqrt(cov_ii cov_jj). A singular J^T J or a zero residual raises LinAlgError.",
  "all residual vectors and Jacobians of every size", "every dimension and every matrix.", [MF+":co_matrices"])
p("Correlation does not depend on parameter units",
  "Rescaling each parameter by a positive factor (Jacobian column j times s_j) leaves corr unchanged and scales cov_ij by 1/(s_i s_j); scaling the residual by c scales cov by c^2 and leaves corr unchanged.",
  "all Jacobians and positive scalings", "relational over all matrices.", [MF+":co_matrices"])
p("line_equation is the line through the two points",
  "Value y1 at x1 and y2 at x2, affine in x, and the same line if the points are swapped; x1=x2 never yields a finite value at the data.",
  "all points with distinct abscissae, all x", "all reals.", [MF+":line_equation"])
p("snr does not depend on the gain of the map",
  "For a gridded map snr(g*P) = snr(P) for g>0, uses only the pixels of the disk of given radius about (centre, centre) for the noise, and is peak/std.",
  "all gridded maps, g>0", "relational over all maps.", [MF+":snr"])
p("block_manual is exactly the annulus minus the legs, with four-fold symmetry",
  "block_manual(pr,sr,a,L)(x,y) is 1 exactly when sr^2<x^2+y^2<pr^2 and the point is in neither leg rectangle, else 0; it is invariant under x->-x, y->-y and x<->y.",
  "all pr,sr,a,L, all points", "all reals.", [TG+":block_manual"])
p("Setting block_manual lengths to zero excludes them",
  "a=0 removes the legs (proved). 'set L to zero' leaves leg corners outside the sub-reflector blocked and 'set sr to zero' leaves the centre point blocked (refuted with witnesses, and the exact residual region characterised).",
  "all pr, sr, a, L and points", "boundary behaviour over reals.", [TG+":block_manual"])
p("block_effelsberg is a four-fold symmetric sub-mask",
  "block_effelsberg(alpha) takes only the values 0 and 1, blocks everything block_manual(50,3.25,1,20) blocks, is invariant under x->-x, y->-y, x<->y; alpha=0 gives no shade at all; the far corners of each shade trapezium lie exactly on the dish rim.",
  "all alpha in [0,pi/2), all points", "all reals including NaN/inf intermediate values at alpha=0.", [TG+":block_effelsberg"])
p("OPD is linear in d_z, rotationally symmetric, largest on axis, zero at one radius",
  "opd(x,y,d_z) is linear in d_z, 0 when d_z=0, depends only on x^2+y^2, equals 2 d_z on axis; opd/d_z strictly decreases with radius, is 0 at r^2 = 4 Fp F and stays in (-2, 2]; opd_effelsberg is opd_manual(30, 387.39435).",
  "all points, all foci >0, all d_z", "all reals.", [TG+":opd_manual",TG+":opd_effelsberg"])
p("illum_parabolic: peak, edge taper, monotonicity, outside values",
  "Ea at the offset centre is i_amp; at radius pr from it the level is exactly c_dB decibel below the peak; between it decreases with radius and stays in [c*i_amp, i_amp]; beyond pr it is 0 for non-integer q but NOT for integer q; exactly 5 coefficients are required (ValueError otherwise).",
  "all coefficients with i_amp>0, c_dB<=0, q>0, all points", "all reals; NaN handling of negative base.", [AP+":illum_parabolic"])
p("illum_gauss: positive, radially decreasing, ignores q",
  "Ea is positive for i_amp>0, maximal at (x0,y0) with value i_amp*sqrt(2 pi)*sigma, decreases with distance, and depends only on the first two and the last two of two or more coefficients (so a 4- and a 5-coefficient list agree; fewer than two are a ValueError); it is not a 'normalized Gaussian'.",
  "all coefficients and points", "all reals.", [AP+":illum_gauss"])
p("aperture: amplitude is B*Ea, phase terms only rotate it",
  "|aperture(x,y)| = |B(x,y) Ea(x,y)| whatever K_coeff, d_z and wavel are; it is 0 wherever blocked; changing the piston coefficient multiplies every pixel by the same unit complex number; negating K_coeff and d_z conjugates it.",
  "all points, coefficients, blockages, illuminations", "all inputs, relational.", [AP+":aperture"])
p("radiation_pattern conserves power",
  "sum |F|^2 = resolution^2 * sum |E|^2 (Parseval), so the total power does not depend on K_coeff, d_z or wavel; the boresight sample F at frequency 0 is the plain sum of the aperture and |F| never exceeds sum|E|.",
  "all resolutions, apertures, coefficients", "every grid size and aperture.", [AP+":radiation_pattern"])
p("The frequency axes are sorted, centred and evenly spaced",
  "u_shift and v_shift have length resolution, are strictly increasing with constant step wavel*(resolution-1)/(2*box_factor*pr*resolution), and are 0 exactly at index resolution//2, the index where F_shift holds the boresight sample.",
  "all resolutions>=2, pr, box factors, wavelengths", "every grid size.", [AP+":radiation_pattern"])
p("The power pattern cannot see piston or amplitude",
  "|F|^2 is unchanged by K(0,0), scales by i_amp^2, and residual_true is therefore unchanged by any change of K(0,0) and by any change of i_amp among non-zero values: these parameters are not identifiable, although the default configuration leaves i_amp free.",
  "all data, parameters, telescopes", "relational over all inputs.", [CO+":residual_true",AP+":radiation_pattern",CF])
p("Defocus sign ambiguity (why out-of-focus maps are needed)",
  "For a point-symmetric blockage and illumination, replacing every K(n,l) by (-1)^(n+1) K(n,l) and d_z by -d_z gives exactly the same power pattern; so at d_z=0 the sign of the even-order coefficients is undetermined.",
  "all coefficients, point-symmetric telescopes, resolutions", "relational over all inputs.", [AP+":radiation_pattern","docs/index.rst"])
p("residual_true: size, range and zero on exact data",
  "The residual has 3*(points per map) entries each in [-1,1]; it is all zero when the data are the model's own maps up to a per-map positive gain and offset; it raises ValueError when a data point lies outside the FFT grid.",
  "all data and parameters", "all inputs.", [CO+":residual_true"])
p("params_complete restores what np.delete removed",
  "If excluded is strictly increasing within 0..7 then params_complete(np.delete(v, excluded)) has 5+N_K entries, equals v at every non-excluded index and the fixed value at every excluded index.",
  "all parameter vectors, orders and all strictly increasing exclusion lists", "every vector and exclusion set.", [CO+":params_complete",CO+":fit_zpoly"])
p("params_complete misplaces values for an unsorted or out-of-range exclusion list",
  "The same statement is false for every vector when two indices are listed in decreasing order (the fixed value lands one place too far, or IndexError), when an index is listed twice (one entry too many) and when an index above 7 is listed (it is not put back, and the wavefront of the result raises).",
  "all vectors, orders, configurations and such exclusion lists", "every vector and every bad exclusion list.", [CO+":params_complete"])
p("A complete parameter vector passes through unchanged",
  "params_complete(v) = v whenever v already has 5+N_K entries, so params_complete is idempotent; residual equals residual_true on complete vectors.",
  "all vectors", "all vectors.", [CO+":params_complete",CO+":residual"])
p("fit_zpoly writes exactly the documented files",
  "After a run with order_max=N into a fresh directory, the directory holds exactly fitpar/res/jac/grad/phase/cov/corr for each n in 1..N plus beam_data, u_data, v_data and pyoof_info.yml when N>=1, and nothing outside it changed.",
  "all N, all initial file systems, all optimizer behaviours", "all file systems and histories.", [CO+":fit_zpoly",AX+":store_data_csv",AX+":store_data_ascii"])
p("Stored parameters are complete, labelled and pinned",
  "Every stored fitpar_n has 5+(n+1)(n+2)/2 rows named i_amp,c_dB,q,x_0,y_0,K(n,l) in the order wavefront consumes them; excluded parameters equal their fixed value at every order; the others equal the optimizer's answer.",
  "all orders, exclusion lists, optimizer behaviours", "all optimizer outcomes.", [CO+":fit_zpoly",AX+":store_data_ascii"])
p("Each order starts from the previous order's solution and inside the bounds",
  "With fit_previous=True order n starts from the stored parameters of n-1 padded with 0.1; with the default configuration and an optimizer that respects its bounds the starting point is strictly inside the bounds at every order.",
  "all orders, all optimizer behaviours", "induction over orders.", [CO+":fit_zpoly",CF])
p("Output is never overwritten",
  "A run never alters any file or directory that existed before it, as long as fewer than 101 runs of that name exist; with all of name-000..name-100 present it overwrites name-100 (refuted).",
  "all initial file systems", "needs every history incl. the 102nd run.", [CO+":fit_zpoly"])
p("Run directories of different observations never collide",
  "For observation names n1<>n2 the directories n1-jjj and n2-kkk are different, and successive runs of one name get strictly increasing numbers.",
  "all names and run numbers", "all strings.", [CO+":fit_zpoly"])
p("A crash at any point leaves earlier results intact",
  "If fit_zpoly dies after any number of file system steps, everything that existed before is unchanged and a later run of the same name uses a different directory.",
  "all crash points, all file systems", "every crash point.", [CO+":fit_zpoly"])
p("Concurrent runs",
  "Two concurrent runs with different names, under every interleaving, each leave exactly the files they leave alone; two runs with the SAME name can pick the same directory (refuted: explicit schedule).",
  "all schedules", "every interleaving.", [CO+":fit_zpoly","scripts/pyoof_effelsberg_mpi.py"])
p("store_data_csv pairs every file with its data and header",
  "For order 1 nine files, otherwise six files are written; each named file gets exactly the array documented for it and its header; order n>1 never touches the data files or another order's files.",
  "all orders, names, directories", "all orders.", [AX+":store_data_csv"])
p("str2LaTeX escapes every underscore and nothing else",
  "Every underscore of the result is preceded by the inserted backslash, other characters are kept in order, the length grows by the number of underscores, the map is injective; it is not idempotent (refuted unless there is no underscore).",
  "all strings", "all strings.", [AX+":str2LaTeX"])
p("FITS path handling",
  "extract_data_* accepts exactly the paths whose base name is <stem>.fits with a stem containing a non-dot character; it then returns that stem and the directory part, and directory/stem.fits names the same file; other paths raise ValueError before any file is opened; a missing header key raises ValueError in extract_data_pyoof.",
  "all path strings, all headers", "all strings.", [AX+":extract_data_pyoof",AX+":extract_data_effelsberg"])
p("Simulated files read back as simulated",
  "extract_data_pyoof of the file written by simulate_data_pyoof returns the same object name, wavelength, d_z triple, and beam/u/v maps (up to the single-precision rounding of the table columns) in the order minus, zero, plus; freq*wavel is the speed of light.",
  "all inputs", "round trip over all inputs.", [SI+":simulate_data_pyoof",AX+":extract_data_pyoof"])
p("simulate_data_pyoof checks d_z and numbers files freshly",
  "ValueError exactly when d_z[0]>0 or d_z[1]!=0 or d_z[2]<0 (so [0,0,0] is accepted although the docs require negative/zero/positive); the file written did not exist; nothing else is overwritten; when test000..test100 all exist it raises UnboundLocalError and writes nothing.",
  "all d_z, all file systems", "all histories.", [SI+":simulate_data_pyoof"])
p("Trimming of simulated maps keeps a square, aligned block",
  "If no frequency sample falls exactly on the trim limit, the kept power samples and the kept u,v samples are the same pixels, form a k x k block, and reshaping succeeds; if one falls on the limit the counts differ and reshape raises ValueError.",
  "all grids and limits", "all grid sizes, boundary equality.", [SI+":simulate_data_pyoof"])
p("uv_ratio is a pure aspect ratio",
  "height is 5, width is 11.25*(range of u)/(range of v); invariant under a common change of angle unit and under shifts of u and v.",
  "all u,v", "all reals.", [AX+":uv_ratio"])
p("Actuator transform and itransform are inverse up to clipping",
  "itransform(transform(d)) = d clipped to the amplitude limits; transform(itransform(p)) = p whenever the implied displacements are within the limits; for every nrot, sign in {-1,1}, wavelength, and map size.",
  "all maps, nrot, wavelengths", "all maps and integers nrot.", [AC+":transform",AC+":itransform"])
p("Displacements never exceed the actuator limits",
  "Every finite value returned by itransform and every value written by write_lookup lies in the amplitude limits, whatever the phase map.",
  "all maps", "safety over all maps.", [AC+":itransform",AC+":write_lookup"])
p("Look-up tables survive a write/read cycle",
  "read_lookup(interp=False) of a table written by write_lookup gives back the 11x96 table clipped to the limits and rounded half-to-even to integer micrometres; in particular integer tables within the limits are returned exactly. For a stack of surface maps write_lookup writes the values of the spline through each map at the positions of the 96 actuators (interp_surface2rings).",
  "all 11x96 tables", "all tables; text format round trip.", [AC+":write_lookup",AC+":read_lookup"])
p("generate_phase_pr applies the ellipsoidal correction once per elevation",
  "FALSE of the code: with eac=True the map of elevation number a (of N) is multiplied by correction^(N-a). Proved for the code as it is; the intended statement is refuted. With eac=False each map is the phase of the gravity-model coefficients.",
  "all elevation lists, coefficients", "needs the number of elevations as a variable.", [AC+":generate_phase_pr"])
p("Ellipsoidal actuator correction is the cosine of the surface tilt",
  "correction(r) = 1/sqrt(1+z'(r)^2) for the ellipse z=a sqrt(1-r^2/b^2), is in [0,1], is 1 on axis (a division by zero that resolves), decreases with r, 0 at r=b and NaN beyond.",
  "all r, a>0, b>0", "all reals incl. the singular point.", [AC+":ellipsoidal_actuator_correction"])
p("Gravitational deformation model",
  "grav_deformation is linear in g_coeff, 360 deg periodic in elevation, gives the same value for an angle in deg or rad; three distinct elevations within one turn determine g_coeff uniquely.",
  "all coefficients, elevations", "all reals.", [AC+":grav_deformation"])
p("Actuator Zernike fit returns full-size, tilt-free coefficient rows",
  "fit_zpoly(fem=True) returns (alpha.size, N_K) with the first three columns zero whatever the optimizer returns; the residual it minimises vanishes at the true coefficients of a generated map.",
  "all optimizer behaviours, all maps", "all optimizer outcomes.", [AC+":fit_zpoly"])
p("The 96 actuators sit on four rings, distinct, and a quarter turn permutes them",
  "Actuator 24*i+k is at radius R_i and angle 7.5+15k degrees; all 96 positions are distinct and within the sub-reflector; a 90 degree rotation maps the layout onto itself.",
  "all 96 actuators", "geometric identity in exact reals.", [AC+":__init__"])
p("residual_true and residual with interp=False cannot return",
  "The documented option interp=False never yields a residual: for every data array, 2-D or 3-D, and every resolution the call raises; on otherwise valid input the exception is ValueError (the per-map normalisation broadcasts the wrong axis).",
  "all parameters, data arrays, resolutions", "a claim that no input works.", [CO+":residual_true",CO+":residual",MF+":norm"])
p("Tilt coefficients move the power pattern by whole bins",
  "Adding b bins to the second and a bins to the third Zernike coefficient (one bin = (N-1)/(2 box_factor N)) moves every sample of the pattern by b rows and a columns: pointing and tilt are the same thing.",
  "all telescopes, coefficients, resolutions, integer shifts that stay on the grid", "all inputs and all pixels.", [AP+":radiation_pattern"])
p("fit_zpoly completes on valid input",
  "If the work directory exists, fewer than 101 runs of the name exist, the configuration is valid, the data hold three maps and the external optimizer, covariance and drawing routines return, fit_zpoly returns normally for every order_max: no KeyError, shape error or missing file on the way, including the reading back of its own files.",
  "all file systems, configurations, orders, optimizer behaviours", "needs every order and every answer of the optimizer.", [CO+":fit_zpoly",PL+":plot_fit_path"])
p("The stored files of one order belong together",
  "In the directory of a run the residual, Jacobian and gradient are those of the optimizer's answer stored in fitpar_n, phase_n is the phase of the stored coefficients, cov_n/corr_n start with the indices of the fitted parameters and hold the matrices of that answer, the data files are the input maps and pyoof_info.yml describes the run.",
  "all orders, configurations, optimizer behaviours", "every order of every run.", [CO+":fit_zpoly",AX+":store_data_csv",AX+":store_data_ascii"])
p("What a crash leaves is final or recognisably unfinished",
  "After any number of file system calls of a run that would have succeeded, every path is as it was before, is a file opened but not yet written, or already has exactly its final content: no file is written twice.",
  "all crash points, all file systems", "every crash point.", [CO+":fit_zpoly",AX+":store_data_csv"])
p("A sampled phase map determines its Zernike coefficients",
  "Two coefficient lists of the same order n that give the same phase map on a grid of m x m samples, 3(n+1) <= 2(m-1), are equal, apart from the coefficients that piston=False and tilt=False switch off.",
  "all orders, coefficients, grids fine enough", "uniqueness over all coefficient vectors of every order.", [AP+":phase",AC+":fit_zpoly"])
p("fit_all inverts generate_phase_pr",
  "For an optimizer that reaches a zero residual whenever there is one, fit_all applied to maps from generate_phase_pr(g, alpha, eac=False) returns g with the first three rows set to zero, and the coefficients of each elevation, whenever the elevations contain three different ones within a turn.",
  "all orders, gravity coefficients, elevation lists, exact optimizers", "uniqueness over all inputs and all optimizers.", [AC+":fit_all",AC+":fit_zpoly",AC+":fit_grav_deformation",AC+":generate_phase_pr"])
p("Cut look-up files are recognised, up to two exceptions",
  "Reading a look-up file that was cut short anywhere raises, or returns the table with at most the last number (actuator 96, 90 deg) wrong, or, when cut right after the first line, silently repeats actuator 1 for all 96; write_lookup of a table with fewer than 96 columns raises IndexError and leaves such a file.",
  "all tables, all cut positions", "every crash point of the write.", [AC+":read_lookup",AC+":write_lookup"])
p("Constructor maps and contour levels",
  "The maps the constructor derives from a look-up file are finite, zero from the rim of the sub-reflector outwards, one per listed elevation, and phase_pr_lookup is their transform; the contour levels plot draws for displacements correspond to the phase levels -2..2 rad scaled by n_reflections/2 (so they agree only for two reflections).",
  "all tables, interpolators, grid sizes, settings", "all tables and all pixels.", [AC+":__init__",AC+":read_lookup",AC+":plot"])


p("Layout of observation files",
  "extract_data_pyoof succeeds exactly when the file has the header keys and at least three tables with DZ and the columns BEAM, U, V, and returns the tables in the stored order; extract_data_effelsberg reads columns fnu, DX, DY, takes the wavelength as c / FREQ and returns the tables in the order third, first, second, so that d_z is minus, zero, plus. Neither changes any file.",
  "all files, working directories and paths", "an equivalence over all FITS contents.", [AX+":extract_data_pyoof",AX+":extract_data_effelsberg"])
p("Concurrent simulations in one directory can lose a file",
  "There is a schedule of two simulate_data_pyoof calls with the same work_dir under which both return normally, yet only the second's file exists: the check for a free number and the creation of the file are separate steps.",
  "all arguments; existence of a schedule", "needs a particular interleaving of two processes.", [SI+":simulate_data_pyoof"])


p("table_pyoof_out summarises runs faithfully",
  "table_pyoof_out(path, order) returns one row per directory, in the given order, taken from the files of the requested order; it succeeds exactly when pyoof_info.yml, phase_n and fitpar_n of every directory are there with three signal-to-noise values, three parameters and a valid date. The row of a completed run holds its name, object, date, elevation and signal-to-noise ratios, the first three fitted parameters, and the rms and the random-surface-error efficiency exp(-rms^2) of the phase of its coefficients over the disk. Nothing is written.",
  "all file systems, lists of directories, orders, runs", "all files and all runs of the fit.", [AX+":table_pyoof_out"])
p("The order 1 row of the summary table says nothing",
  "For every run, whatever was observed and fitted, the phase-rms of order 1 is 0 and e_rs is 1, because the stored phase has piston and tilt removed.",
  "all runs, telescopes, optimizer behaviours", "all runs.", [AX+":table_pyoof_out",CO+":fit_zpoly",AP+":phase"])


p("Aperture averages of the wavefront",
  "The mean of the wavefront over the aperture is the piston coefficient; the mean product of two wavefronts is the sum over (n,l) of K K' e/(2(n+1)) with e = 2 for l = 0 and 1 otherwise (so the rms wavefront error follows from the coefficients); integrating the wavefront against U(n,l) returns its coefficient times the norm.",
  "all orders and coefficient vectors", "integrals over all vectors of every order.", [AP+":wavefront",Z+":U"])


p("The matrix figure names the right parameters",
  "plot_variance(matrix, order, diag=True) of a stored covariance or correlation matrix puts the name of each fitted parameter (A, c_dB, q, x_0, y_0, K_{n,l}) on its column and on its row, and shows each pair once, at the crossing of its ticks, with a colour scale over all values. With diag=False no correct figure exists: a ValueError with matplotlib 3.3 or later, and before that the lowest row carries the wrong name.",
  "all matrices, sets of fitted parameters, orders, titles", "all subsets of parameters of every order.", [PL+":plot_variance"])
p("The beam figure shows the three power patterns",
  "plot_beam shows, for the first three radial offsets in the order given, the squared modulus of the radiation pattern, each scaled to its own extent, over the wave-vector axes in the chosen unit (the cell of each sample within half a cell of its coordinates, contours exactly there), with common limits: those given, else eight beam widths around the maximum at the second offset. It needs three offsets (IndexError) and distinct v-limits (ZeroDivisionError).",
  "all coefficients, telescopes, illuminations, resolutions, units, limits", "all grids and all patterns.", [PL+":plot_beam"])
p("The data figure shows the maps as observed",
  "plot_beam_data shows map i at its own coordinates u_i, v_i, with its own radial offset in the title, interpolated over their bounding box and scaled to 0..1 (a map with a value that is not finite becomes zero; residuals are shown as they are); the receiver's gain (positive) and zero level, separately for each map, do not change the figure.",
  "all maps, coordinates, interpolations, units", "all data and all interpolations.", [PL+":plot_beam_data"])
p("The phase figure shows the phase of the coefficients",
  "plot_phase shows 2 pi times the Zernike series of the coefficients (without piston or tilt if so asked, and the colour bar says which) inside the dish and zero outside, over [-pr, pr]^2, at each sample's coordinates; plot_phase_data shows the given map there, and refuses maps that are not square.",
  "all coefficients, orders, radii, flags, maps", "all coefficient vectors of every order and all pixels.", [PL+":plot_phase",PL+":plot_phase_data"])
p("plot_fit_path draws the run it is pointed at",
  "After fit_zpoly, plot_fit_path on its directory and an order of the run draws (observed maps for order 1,) fitted beams, phase, residuals, covariance and correlation from exactly what that run observed, fitted and stored at that order, writes only below plots and leaves every stored result unchanged; with save=True all pdf files of the order exist afterwards. For maps with two or more points, positive geometry and two or more fitted parameters it always returns; with a single fitted parameter it always raises.",
  "all runs, optimizer behaviours, orders, units, limits", "all runs and file systems.", [PL+":plot_fit_path",CO+":fit_zpoly"])


p("A simulated observation is explained by the parameters that made it",
  "An observation simulated without noise, written to its FITS file and read back, has residual zero at every data point for the coefficients, telescope, wavelength, resolution and box it was simulated with (single precision taken as exact). With noise of size at most e in every pixel each residual is at most 4 e / D, D being the smallest range of the three noise-free maps; the same bound holds for any data within e of the model.",
  "all coefficients of every order, telescopes, illuminations, resolutions, box factors, noise", "all simulated observations through simulator, file, reader and residual.", [SI+":simulate_data_pyoof",AX+":extract_data_pyoof",CO+":residual_true"])


p("The batch script stores every observation with every telescope",
  "pyoof_effelsberg.py: if the batch ends, every FITS file it was given has been fitted with every telescope of the dictionary, each pair in a numbered directory of its own that did not exist before, holding the complete documented files with that observation's data and the optimizer's answers; nothing that existed is altered and nothing else is new. It does end when the optimizer answers, the observations can be fitted and there are enough free numbers.",
  "all lists of files, telescopes, orders, file systems, optimizer behaviours", "batches of any length and all file systems.", ["scripts/pyoof_effelsberg.py:compute_phase_error",CO+":fit_zpoly",AX+":extract_data_effelsberg"])
p("Dividing the batch over MPI processes changes nothing",
  "numpy.array_split gives every file to exactly one of the processes and loads that differ by at most one. For files with different names, under every interleaving of the processes' file operations, stopped anywhere: a process that has ended has the outcome and the directories of its share run alone; when all have ended well, everything is stored as in the sequential batch; every schedule can be continued until they have.",
  "all numbers of processes, schedules, lists of files, telescopes, file systems", "all interleavings of any number of processes.", ["scripts/pyoof_effelsberg_mpi.py",CO+":fit_zpoly"])
p("The MPI script as written fits nothing",
  "pyoof_effelsberg_mpi.py passes aperture.illum_pedestal, which pyoof does not have: whatever the files, a process stops with AttributeError after reading its first observation, and no file is written.",
  "all files and file systems", "all inputs.", ["scripts/pyoof_effelsberg_mpi.py:compute_phase_error",AP])
p("The simulation script shows the simulation it has made",
  "pyoof_simulate_data.py in a directory without earlier simulations stores the simulation, reads back exactly it (name, wavelength, radial offsets, maps and coordinates in single precision) and draws the figure of these data. With the arguments as written it always ends.",
  "all simulation arguments, file systems, interpolations, noise", "all arguments, through simulator, file, reader and figure.", ["scripts/pyoof_simulate_data.py",SI+":simulate_data_pyoof",AX+":extract_data_pyoof",PL+":plot_beam_data"])
p("The simulation script run again shows the first simulation",
  "Whatever arguments are edited between two runs of pyoof_simulate_data.py in one directory, the second run shows the observation and the figure of the first: it stores its own simulation under the next number and reads test000.fits.",
  "all pairs of simulation arguments, file systems", "all arguments and histories.", ["scripts/pyoof_simulate_data.py",SI+":simulate_data_pyoof"])


p("The new look-up table is the old one minus the modelled displacements",
  "create_lookup.py: if it ends, the new file holds, for each of the 11 elevations and 96 actuators, the old value minus the displacement at that actuator of the phase map generated from the gravity model, limited to the amplitude limits and rounded to the nearest integer. The gravity model is fitted to the coefficients stored under <name>-000 for exactly those runs whose in-focus signal-to-noise ratio is above 200 and whose name is not offset and does not end in -offset.",
  "all runs, file systems, old tables, instruments, optimizer and interpolation behaviours", "all runs and tables.", ["scripts/create_lookup.py",AC,AX+":table_pyoof_out"])
p("The new look-up table corrects deformations that follow a gravity law",
  "If the measured coefficients beyond piston and tilt follow one gravity law per coefficient at three or more elevations, and the optimizer finds residuals that vanish, the correction is that law evaluated at the elevations of the table, whatever piston and tilt were fitted. If all those coefficients are zero, the new table is the old one, digit for digit.",
  "all gravity laws, elevations, runs, old tables within the limits, instruments", "all laws and tables.", ["scripts/create_lookup.py",AC])
p("Creating a look-up table leaves everything else alone, and ends",
  "At every step of create_lookup.py, also if it is stopped there, only the new table and the four figures have been written and only directories above them created: the old table and the runs are unchanged. When it has ended, the new table and the four figures are there, under five different names. It ends when the old table, the runs with their coefficients and at least one usable run are there, the optimizer and the interpolation return, and the files can be written.",
  "all file systems, runs, crash points", "all states and all crash points.", ["scripts/create_lookup.py",AC,AX+":table_pyoof_out"])

p("The plot of a look-up table shows its eleven maps",
  "EffelsbergActuator.plot with eleven square maps gives eleven panels in the order of the elevations: each shows its map over the dish (phases) or sub-reflector (displacements), is labelled with its elevation and uses the colour scale of all the data; the contour lines are those of the phases -2, -1.5, ..., 2 rad, for displacements as two reflections make them. Fewer maps or maps of another size raise an exception. Without data it shows the phases of the look-up file the object was made from.",
  "all maps, instruments, titles, look-up files, interpolations", "all maps and tables.", [AC+":plot"])

p("The radiation pattern is the far field of the aperture",
  "Sample (r, c) of radiation_pattern has the modulus of the far field of the aperture in the direction (u_c, v_r) of the returned axes: the sum over the aperture samples of blockage times illumination, with the phase of the Zernike series, the defocus path and the path u x + v y. The residual of residual_true is, for each of the three maps, the data scaled to [0, 1] minus the far-field power at that radial offset, interpolated bilinearly at the data points and scaled to [0, 1].",
  "all telescopes, illuminations, coefficients, radial offsets, wavelengths, resolutions, boxes, data", "all apertures and grids.", [AP+":radiation_pattern",CO+":residual_true"])

p("The files of a fit appear in a fixed order",
  "At every moment of a fit_zpoly run, wherever it is killed and also after an exception, no file of the run exists before all files earlier in the order are complete: per order fitpar, (order 1: pyoof_info.yml and the observed data), res, jac, grad, phase, cov, corr, then the figures; one order after the other. So a file of order m shows that every file of the lower orders is complete, and a complete file left by a killed run is the one the whole run would have left.",
  "all arguments, file systems, optimizer and figure behaviours, crash points and exceptions", "all crash points and failures.", [CO+":fit_zpoly",AX+":store_data_csv",AX+":store_data_ascii",PL+":plot_fit_path"])
p("Asking for more orders changes nothing that the lower orders leave",
  "If fit_zpoly with order_max = N succeeds, the same call with order_max = N + k leaves every file and directory of the first with the same content, also when one of the further orders raises.",
  "all arguments, file systems, optimizer behaviours, N and k", "all pairs of runs and failures.", [CO+":fit_zpoly"])

p("From the observations to the look-up table",
  "Fitting a set of observations with pyoof_effelsberg.py into an empty pyoof_out and then running create_lookup.py writes the old table minus the displacements of the gravity model fitted to exactly those observations whose in-focus signal-to-noise ratio exceeds 200 and that are no offsets, each once, at its own elevation and with the coefficients the optimizer found for it, order after order. If those coefficients follow a gravity law at three elevations or more, the correction is that law. With a cooperating optimizer and interpolation both programs end.",
  "all observations, telescopes, illuminations, optimizer and interpolation behaviours, old tables, file systems", "all sets of observations and optimizer answers.", ["scripts/pyoof_effelsberg.py","scripts/create_lookup.py",CO+":fit_zpoly",AX+":table_pyoof_out",AC])
p("The figures of create_lookup show the model, the old and the new table, and the gravity fit",
  "When create_lookup.py ends, its first figure shows the modelled phases over the dish, one panel per elevation of the look-up table; the second and the third show the phases of the old and of the new table. The fourth has one panel per Zernike coefficient from order two on, labelled with it: one point per observation used, at its elevation and with its coefficient as a phase in radians, and the curve of the fitted gravity law between the lowest and the highest elevation; a coefficient that follows a gravity law at three elevations has its points and its curve on that law. This is refuted for orders above five: the script then stops with an exception before it writes anything.",
  "all runs, tables, instruments, orders, optimizer and interpolation behaviours", "all observations and orders.", ["scripts/create_lookup.py",AC+":plot"])

p("A fit of higher order never explains the data worse",
  "Whatever residual a parameter vector of order n within the bounds gives, the same vector with zeros for the new coefficients is within the bounds of order n + k and gives the same residual. So if least_squares finds the best vector within the bounds, up to a tolerance, the sum of squares of the residuals that fit_zpoly stores does not grow with the order, up to that tolerance, and if some vector of order m explains the data exactly, the stored sums of squares of order m and above are at most the tolerance. It is not enough that least_squares never returns something worse than its starting point: a new order starts with 0.1, not 0, for its new coefficients (refuted).",
  "all telescopes, illuminations, observations, configurations with increasing excluded indices, orders, optimizer behaviours, file systems", "all models, data and optimizers.", [CO+":fit_zpoly",CO+":residual",CO+":params_complete",AP+":radiation_pattern"])

p("A fit can be repeated",
  "Two runs of fit_zpoly on the same three maps, up to the gain (positive) and the offset of each map, with the same points, telescope, illumination, wavelength, resolution, configuration and way of starting, store the same parameter tables, residuals, Jacobians, gradients, phases, covariances and correlations for every order both compute, whatever the names, the directories, the objects, the dates, the plots, the orders asked for, the file systems and what was stored there before. One after the other in one file system, they end up side by side in different directories. A fit that succeeded succeeds again, to the same order or less, wherever its directory can be created and its figures drawn.",
  "all pairs of arguments, file systems, deterministic optimizer behaviours, gains and offsets", "all pairs of runs and histories.", [CO+":fit_zpoly",CO+":residual",MF+":norm"])

p("A simulated telescope is recovered",
  "Simulate an observation without noise, read it back from the file and fit it with the same telescope, illumination and grid. If the bounds allow the simulated parameters and least_squares finds the best vector within the bounds up to a tolerance, fit_zpoly stores residuals with a sum of squares of at most this tolerance for the order of the simulated coefficients and every higher one, and where only parameters within d of the simulated ones explain the maps that well, the stored parameters are within d of the simulated ones (zeros for the coefficients of higher order). With noise of size at most e the stored sum of squares is at most the number of data points times (4 e / D)^2 plus the tolerance, D being the range of the noise-free maps. For any data: no allowed parameters of an order explain the data better than those stored for this order and the higher ones, up to the tolerance. The amplitude of the illumination cannot be recovered: where it is fitted, as by default, every amplitude within the bounds explains the maps equally well (refuted for it).",
  "all telescopes, illuminations, coefficients, orders, wavelengths, noise, configurations, file systems, best optimizers", "all simulated telescopes, through simulator, file, reader and fit.", [SI+":simulate_data_pyoof",AX+":extract_data_pyoof",CO+":fit_zpoly",CO+":residual"])

p("The covariances of a fit",
  "A fit_zpoly run that ends has stored, for every order, a Jacobian with independent columns, a residual that is not zero throughout, and their covariances and correlations: the covariance matrix is the inverse of J^T J times the variance of the residuals, symmetric with a positive diagonal, and the correlations are its normalised entries, 1 on the diagonal and below 1 elsewhere. It ends whenever the answers of least_squares have such Jacobians and residuals. Refuted for the default configuration: it fits the amplitude of the illumination, on which the residual does not depend, so in exact arithmetic J^T J is singular and fit_zpoly raises LinAlgError before it stores a file, whatever the maps; refuted also for maps that the model explains exactly.",
  "all telescopes, observations, configurations, orders, optimizer behaviours, file systems", "all observations and optimizer answers.", [CO+":fit_zpoly",MF+":co_matrices",AP+":illum_parabolic"])

p("Phase errors only lower the gain, by at most their variance",
  "Compared with the same telescope without aberrations and in focus, no sample of the power pattern of radiation_pattern exceeds the on-axis power, and the on-axis power is lowered by at most the variance of the phase, weighted with the illumination of the unblocked dish. For a uniformly illuminated dish this loss and the efficiency that e_rs(circ=True) gives for the phase map of the same coefficients both lie between 1 - rms^2 and 1.",
  "all telescopes with non-negative illumination, coefficients, radial offsets, wavelengths, resolutions, boxes", "all coefficient vectors and apertures.", [AP+":radiation_pattern",AP+":e_rs",AP+":phase",MF+":rms"])
p("Small changes of the coefficients change the beam little",
  "Changing the Zernike coefficients and the radial offset changes every sample of the pattern by at most 2 pi (sum of the absolute changes + largest change of the optical path / wavelength) times the total illumination, and the power by at most twice that times the total illumination. For the Cassegrain path difference the largest change is at most twice the change of the radial offset.",
  "all telescopes blocked outside the dish, illuminations, coefficients, radial offsets, wavelengths, resolutions, boxes", "all pairs of coefficient vectors.", [AP+":radiation_pattern",AP+":wavefront",TG+":opd_manual",TG+":block_manual"])
p("Mirrored or exchanged axes",
  "Changing the sign of the sine coefficients (l < 0) mirrors the wavefront in y, changing that of the odd cosine and even sine coefficients mirrors it in x, and exchanging sine and cosine for odd l (with alternating signs) exchanges x and y. On a telescope with this symmetry the power pattern is mirrored about the on-axis sample or transposed in the same way. block_manual, block_effelsberg, opd_manual and the centred parabolic illumination have all three symmetries.",
  "all orders, coefficients, symmetric telescopes, radial offsets, wavelengths, resolutions, boxes", "all coefficient vectors and grids.", [AP+":radiation_pattern",AP+":wavefront","pyoof/zernike/zernike.py:U",TG])

p("Sign and axis conventions only change the signs of parameters",
  "Recording the same three maps with u reversed, v reversed, u and v exchanged or the radial offsets reversed leaves the residual of fit_zpoly unchanged when the parameters are converted: the offset of the illumination moves with the axes, and the Zernike coefficients change sign as the circle polynomials do (for reversed radial offsets the coefficients of even order change sign). So a best fit of the data under the other convention explains the data as well, and where the parameters are determined by the data it stores the converted ones. This holds for block_manual and block_effelsberg with their path differences and for both illuminations, and for every configuration that treats the two signs and the two axes alike, the default one among them. A radial offset given with the wrong sign is therefore not noticed by the fit: it gives an equally good one with the wrong sign in the even orders.",
  "all observations, parameters, orders, symmetric telescopes, illuminations, even configurations, best optimizers, file systems", "all data sets and pairs of runs.", [CO+":fit_zpoly",CO+":residual",AP+":radiation_pattern",TG,"pyoof/zernike/zernike.py:U"])

p("The signal-to-noise ratios of a fit",
  "snr is the largest value of the map over the standard deviation of the pixels within the noise disk; pixels without a value are ignored, and it is NaN, not an exception, if no pixel of the disk has a value. Scattered maps are interpolated onto 300 by 300 points between their extreme coordinates first; without points it raises ValueError. fit_zpoly stores in pyoof_info.yml one ratio for each of its three maps, in their order, taken at 0.04 degrees within 0.01 degrees. The ratios do not depend on the gains of the maps. Refuted: that the map may be normalized or not, as the docstring says; normalising subtracts the minimum and changes the ratio.",
  "all maps, grids, interpolations, fits, file systems", "all maps, with missing pixels anywhere.", [MF+":snr",CO+":fit_zpoly"])

p("Only ratios of lengths matter",
  "Measuring the dish, its blocking, the focal lengths, the offset of the illumination, the radial offset and the wavelength in another unit of length leaves the axes and every sample of radiation_pattern unchanged, and so the residual of a fit. A best fit in the other unit stores parameters that, with the offset of the illumination converted back, are allowed by the converted bounds, explain the maps as well as anything allowed, and are the parameters where the maps determine them. This holds for block_manual, opd_manual and both illuminations.",
  "all positive units, telescopes, illuminations, coefficients, observations, configurations, best optimizers, file systems", "all telescopes and units.", [AP+":radiation_pattern",AP+":aperture",TG,CO+":fit_zpoly",CO+":residual"])

p("A best fit exists, and the residual is continuous in the coefficients",
  "Changing the Zernike coefficients and the radial offsets changes no entry of the residual of a fit by more than a multiple of the change, the multiple depending on the smallest contrast of the modelled maps. So, with the illumination fixed by the configuration and modelled maps that are not constant, some parameters within the bounds fit best: no allowed parameters of that order have a smaller sum of squares. The same holds with the amplitude of the parabolic taper free, as in the default configuration, even when its bounds include 0, although at amplitude 0 the residual is the normalised data whatever the coefficients. Refuted: that the sum of squares is continuous in the amplitude; coefficients that fit exactly do so for every amplitude but 0, where the sum of squares is at least 1.",
  "all telescopes blocked outside the dish, observations on the grid, configurations, orders, coefficients, radial offsets", "all data sets and parameter vectors.", [CO+":fit_zpoly",CO+":residual",MF+":norm",AP+":radiation_pattern",AP+":illum_parabolic"])

p("Any number of fits at the same time, and a power cut",
  "Fits that do not write into each other's directories or configuration files do not disturb each other, however many run at the same time and however their steps are interleaved: at every moment the directory each writes to is as some number of steps of that fit alone leave it, a fit that has ended has ended and stored what it would have alone, and every other path is untouched. A schedule that keeps giving each of them its turn completes all of them. If all are cut off at the same moment, what was there before is unaltered and each file of a fit that would have succeeded is as before, unfinished, or the final one.",
  "all lists of independent fits, file systems, schedules, points of a power cut", "unboundedly many processes and schedules.", [CO+":fit_zpoly",AX+":store_data_csv","scripts/pyoof_effelsberg_mpi.py"])

p("Rounding errors of the Zernike polynomials and the wavefront",
  "Evaluated in binary64 with powers, sines and cosines accurate to e, zernike.U(n, l, rho, theta) is within 2 (n + 6) (5/2)^n e of the exact value everywhere on the dish, and wavefront within twice that times the sum of the absolute coefficients. Up to order 10 with functions accurate to 2^-52 this is at most 2^-32 of that sum. The rounded computation raises an exception where the exact one does, and the same.",
  "all admissible indices, coefficients, radii up to 1, angles, libraries of the given accuracy", "all coefficient vectors, positions and numpy builds.", ["pyoof/zernike/zernike.py:R","pyoof/zernike/zernike.py:U",AP+":wavefront"])

p("Looking at earlier results while fits are running",
  "A table of earlier runs, the figures of an earlier run (not stored) and the observation in a FITS file come out the same whether or not any number of independent fits is running at the same time, whatever the schedule, and come out once the program that makes them has had enough turns; the fits do exactly what they do when nobody is looking.",
  "all lists of independent fits, runs, FITS files, file systems, schedules", "unboundedly many processes and schedules.", [AX+":table_pyoof_out",PL+":plot_fit_path",AX+":extract_data_pyoof",AX+":extract_data_effelsberg",CO+":fit_zpoly"])

p("Rounding errors of rms and of the efficiency",
  "In binary64, in whatever order numpy adds the squares, rms is within (d + 4) 2^-52 of the exact value, relative to it, where d is the most additions that a summand goes through (about 30 for numpy's pairwise sum of a large map, the number of pixels at worst); with circ=True on a map with an even number of pixels across, binary64 takes exactly the pixels of the circle and the same bound holds. e_rs is within e + 3 (e + (d + 4) 2^-52) (rms + 1)^2 of the exact efficiency when power and exponential are accurate to e.",
  "all maps, orders of summation, libraries of the given accuracy", "all maps and orders of summation.", [MF+":rms",AP+":e_rs"])

p("Rounding errors of grids, of the rim and of the axes",
  "In binary64 the points of linspace(-B, B, n) are within 2^-49 B of the exact ones and strictly increasing. A pixel is put inside or outside the dish as in exact arithmetic when it is further than 2^-47 from the rim, relative to the radius; with an even number of points, such as the default 1000 of phase, this is every pixel. The axes of radiation_pattern are within N 2^-49 of the exact ones, relative to each entry; they are exactly 0 in the middle, exactly antisymmetric about it and strictly increasing.",
  "all radii and boxes between 2^-100 and 2^100, numbers of points, wavelengths, pixels", "all grids and pixels.", [MF+":rms",AP+":phase",AP+":radiation_pattern"])

p("Rounding errors of the phase map",
  "In binary64, with library functions (powers, sines, cosines, arctan2 up to a full turn) accurate to e, every pixel of the map that phase returns is within 15 loss(n) e times 2 pi times the sum of the absolute coefficients of the exact one, if it is further than 2^-47 from the rim; with an even number of points, such as the default 1000, this is every pixel. Up to order 10 and for functions accurate to 2^-52 the factor is below 2^-29. The map has the shape of the exact one, and phase raises the same exceptions.",
  "all accurate libraries, all triangular coefficient arrays, all radii, resolutions, pixels and piston and tilt flags", "the pixel coordinates, the polar coordinates and the polynomials are all rounded, and arctan2 jumps by a full turn near the negative x axis; only an analysis shows that the errors stay small at every pixel", [AP+":phase",MF+":cart2pol",AP+":wavefront"])

p("The order of the readings, and broken readings",
  "The three maps may be given in any order together with their radial offsets, and the readings of a map in any order together with their positions: every reading keeps its residual, the same parameters are the best ones, fits that find them store residuals with the same sum of squares, and co_matrices returns the same matrices when residuals and rows of the Jacobian are reordered together. One reading of a map that is NaN or infinite erases the map: the residual and the stored results of fit_zpoly are the same whatever the other readings of that map are, and nothing is reported.",
  "all observations, reorderings, parameters, telescopes, illuminations, optimizers, sets of broken readings", "all reorderings of arbitrarily many readings, all values of the other readings.", [CO+":residual_true",CO+":fit_zpoly",MF+":co_matrices",MF+":norm"])

p("The phase map is the phase of the aperture field",
  "At every pixel inside the dish, the aperture distribution for coefficients K is the one of the perfect telescope (all coefficients zero, same illumination, blockage and radial offset) multiplied by exp(i (phase + 2 pi left out)), where left out is the piston K(0, 0) and the plane of the tilts if phase was asked to leave them out. Where the perfect telescope has a field, two surfaces give the same field exactly if their phases differ by whole turns. The phase map and the parameters that fit_zpoly stores for an order are related in this way.",
  "all coefficients, telescopes, illuminations, radial offsets, wavelengths, resolutions, switches, pixels, fits", "all coefficient vectors and pixels.", [AP+":phase",AP+":aperture",CO+":fit_zpoly"])

p("Rounding errors of the aperture field and of the radiation pattern",
  "For a telescope of the manual geometry with the parabolic taper, computed in binary64 with library functions accurate to e and a Fourier transform accurate to f (relative to the sum of the absolute values), when no sample of the aperture lies within rounding of an edge: the aperture field is at every grid point within 2 field_loss e of the exact one relative to the amplitude, and exactly zero where the exact one is blocked; every entry of the radiation pattern is within 2 (field_loss e + f) of the exact one relative to the largest value such an aperture can give, and every entry of the power pattern within 5 (field_loss e + f) relative to the largest power; the axes are within N 2^-49. field_loss = bf (130 q + 20 loss(n) (1 + 2 pi turns)) with the phase in turns. radiation_pattern raises the same exceptions.",
  "all accurate libraries and transforms, all triangular coefficient arrays, all manual telescopes, tapers, wavelengths, radial offsets, box factors and resolutions within the stated range, all samples", "the errors of the coordinates, the taper, the phase, the blockage and the transform add up over all samples; only an analysis bounds them for every input", [AP+":aperture",AP+":radiation_pattern",AP+":illum_parabolic",TG+":block_manual",TG+":opd_manual"])

p("Rounding errors of the residual",
  "For the telescopes of the previous property, computed in binary64: a modelled map at the points of the data (off the border of the far-field grid by the rounding error of the axes) is within 5 l + N^2 2^-46 of the exact one relative to the largest power that the aperture can give, where l bounds field_loss e + f; a normalised map of readings is within 2^-51 of the exact one, and zero in both if a reading is not finite; every entry of the residual is within four times the error of the modelled map divided by the contrast of the modelled maps, plus 10 2^-53, of the exact one. A point off the grid by more than the rounding error raises ValueError in both.",
  "all accurate libraries and transforms, all parameters, telescopes, observations of three maps of any number of points, non-finite readings", "the points move between cells of the rounded grid and the normalisation divides by a rounded range; only an analysis bounds the error for every observation", [CO+":residual_true",MF+":norm",AP+":radiation_pattern"])

p("The scripts do what their settings say",
  "The telescopes of pyoof_effelsberg.py and pyoof_effelsberg_mpi.py have a 50 m dish and block exactly what their names say: legs at 10 or 20 degrees with their shades, legs without shades, only the sub-reflector, nothing (except the centre point). A batch of pyoof_effelsberg.py that ends has left the parameters of the orders 1 to 5 of every observation in a directory of its own, and of no other order. The observation shown by pyoof_simulate_data.py in a fresh directory has residual zero for the coefficients, the telescope, the wavelength and the offsets written in the script (single precision taken as exact).",
  "all aperture points, lists of files, file systems, optimizer behaviours, interpolations, random generators", "all points of the aperture and all file systems; the scripts have no tests", ["scripts/pyoof_effelsberg.py","scripts/pyoof_effelsberg_mpi.py","scripts/pyoof_simulate_data.py",TG+":block_effelsberg",TG+":block_manual"])

p("A full disk is never silent",
  "Whichever system calls fail (a directory cannot be made, a file cannot be opened, written or read), every function that touches files ends as if nothing had failed, or raises OSError and leaves the files of a run killed at that point. So a fit_zpoly that returns has stored everything; one that is stopped has altered nothing that was there, each of its files is absent, unfinished or final, and the next fit takes a directory of its own. The disk can fill up at any file that a run writes. Refuted: that this covers questions whether a path exists; when the stat call behind os.path.exists fails, it answers no, and a fit may store its results in the directory of an earlier run, over its results, although numbers are free.",
  "all sets of failing calls, all fits, batches, simulations, tables, look-up tables, figures, file systems", "all combinations of failure points.", [CO+":fit_zpoly",AX+":store_data_csv",AX+":store_data_ascii",AX+":table_pyoof_out",AX+":extract_data_pyoof",PL+":plot_fit_path",SI+":simulate_data_pyoof",AC+":Actuator.write_lookup","scripts/create_lookup.py"])

p("What can be read of an unfinished run is final",
  "While a fit_zpoly is running, or after it was killed, at any moment: if table_pyoof_out of any directories and order returns a table, or plot_fit_path without storing returns its figures, these are the ones it returns once the fit has ended. So too with any number of independent fits running under any schedule. And there is something to read early: for each N up to the highest order there is a moment of the fit at which the table of each order up to N can be made while every later one raises FileNotFoundError. A file that is still being written may be empty or show any number of its first rows: the table of a run whose phase is cut short raises IndexError (each number of rows can be met), and so do the figures of one whose correlation matrix is. (Not covered: a last number cut in the middle.)",
  "all fits, optimizer behaviours, moments, sets of fits and schedules, directories, orders, figure settings", "all moments at which a reader may look or a run may be killed, and all schedules.", [CO+":fit_zpoly",AX+":table_pyoof_out",PL+":plot_fit_path",AX+":store_data_csv",AX+":store_data_ascii"])

p("A best fit in binary64 is nearly a best fit",
  "For the telescopes of the previous rounding properties: the sum of squares of the residual that binary64 computes for a vector of parameters (beams, interpolation, normalisation, residual, and squares added in whatever order) is within M (9 E + 13 k) of the exact one, for three maps of M points, E the error of an entry of the residual and k the one of the sum. So binary64 prefers a vector to another whenever it is better by more than twice that. The vector of any set of candidates that binary64 finds best, up to the tolerance of the optimizer, is the best of the set up to that tolerance and twice the error; if some candidate explains the maps exactly, every entry of its residual is below the square root of that. An optimizer that minimises the cost in binary64 over the vectors that the configuration allows gives answers that are best over the reals up to that amount, as the properties on recovered parameters need.",
  "all accurate libraries, transforms and orders of additions, all sets of parameter vectors, telescopes, observations of three maps of any number of points, configurations", "an optimizer compares rounded costs of infinitely many vectors; only an analysis shows that the rounding cannot hide a better fit.", [CO+":residual_true",CO+":residual",CO+":fit_zpoly",CO+":params_complete"])

p("Rounding errors with a gaussian illumination",
  "The gaussian illumination computed in binary64 is within 320 e / t^2 of the exact one relative to its largest value, where t is the taper as a fraction (10^(c_dB/20)) and e the accuracy of the library functions, at every point no further from its centre than twice the radius of the dish, whether the coefficients are the four of the documentation or the five that the fit passes. For a telescope of the manual geometry whose samples are clear of the edges: the aperture field is within 2 l, every entry of the radiation pattern within 2 (l + f) and of the power pattern within 5 (l + f) of the exact ones, relative to the largest values such an aperture can give, with l = e bf (390 / t^2 + 20 loss(n) (1 + 2 pi turns)) and f the accuracy of the Fourier transform; blocked points are exactly zero. radiation_pattern raises the same exceptions.",
  "all accurate libraries and transforms, all tapers from -100 to 0 dB and centres in the dish, all triangular coefficient arrays, manual telescopes, wavelengths, offsets and resolutions within the stated range, all samples", "the exponential turns absolute errors of its argument into relative ones, for every taper and every point; only an analysis bounds them.", [AP+":illum_gauss",AP+":aperture",AP+":radiation_pattern"])

p("Rounding errors of the Effelsberg telescope",
  "With the blockage and the path difference of the Effelsberg telescope computed in binary64, for leg angles up to 45 degrees with sine at least 1/1000: at every grid point further than 800 e (relative to the half width of the aperture plane) from the edges of dish, subreflector, legs and leg shades the mask equals the exact one, although the corner of the shades, the sloping lines and the circle are all rounded; the path difference in wavelengths is within (12 h + 72) e of the exact one relative to its largest value when the coordinates are within 50 h e; and when all samples are clear, the aperture field is within 2 l, every entry of the radiation pattern within 2 (l + f) and of the power pattern within 5 (l + f) of the exact ones, relative to the largest values such an aperture can give, with the loss l of the manual telescope and f the accuracy of the Fourier transform; covered points are exactly zero. radiation_pattern raises the same exceptions.",
  "all accurate libraries and transforms, all such leg angles, all triangular coefficient arrays, parabolic tapers, wavelengths, offsets, box factors and resolutions within the stated range, all samples", "a point of the grid near an edge may fall on either side of it after rounding, for each angle and each grid; tests on a few grids cannot show that away from the edges this never happens.", [TG+":block_effelsberg",TG+":opd_effelsberg",MF+":line_equation",AP+":aperture",AP+":radiation_pattern"])

p("A best fit of the Effelsberg telescope in binary64 is nearly a best fit",
  "For the Effelsberg telescope with leg angle up to 45 degrees and sine at least 1/1000, on grids whose samples are clear of the edges: every modelled map at points well inside the grid is within 5 l + N^2 2^-46 of the exact one in binary64, relative to the largest power of such an aperture; every entry of the residual is within four times that divided by the contrast of the modelled maps, plus 10 roundings; a point off the grid raises ValueError in both. The sum of squares of the residual is within M (9 E + 13 k) of the exact one, so binary64 ranks two vectors as it should when they differ by more than twice that, the vector it finds best among any candidates is nearly the best, its residual is small everywhere if some candidate explains the maps, and an optimizer that minimises the cost in binary64 gives answers that are best over the reals up to that amount, as the properties on recovered parameters need.",
  "all accurate libraries, transforms and orders of additions, all such leg angles, sets of parameter vectors, observations of three maps of any number of points, configurations", "an optimizer compares rounded costs of infinitely many vectors, and the mask of this telescope is itself rounded; only an analysis shows that rounding cannot hide a better fit.", [TG+":block_effelsberg",TG+":opd_effelsberg",CO+":residual_true",CO+":residual",CO+":fit_zpoly","scripts/pyoof_effelsberg.py"])

p("A best fit with a gaussian illumination in binary64 is nearly a best fit",
  "For a telescope of the manual geometry with a gaussian illumination centred in the dish, tapers from -100 to 0 dB, on grids whose samples are clear of the edges: every modelled map at points well inside the grid is within 5 l + N^2 2^-46 of the exact one in binary64, relative to the largest power of such an aperture; every entry of the residual is within four times that divided by the contrast of the modelled maps, plus 10 roundings; a point off the grid raises ValueError in both. The sum of squares of the residual is within M (9 E + 13 k) of the exact one, so binary64 ranks two vectors as it should when they differ by more than twice that, the vector it finds best among any candidates is nearly the best, its residual is small everywhere if some candidate explains the maps, and an optimizer that minimises the cost in binary64 gives answers that are best over the reals up to that amount, as the properties on recovered parameters need.",
  "all accurate libraries, transforms and orders of additions, all such tapers and centres, sets of parameter vectors, telescopes of the manual geometry, observations of three maps of any number of points, configurations", "an optimizer compares rounded costs of infinitely many vectors, and a deep taper amplifies the rounding of the coordinates; only an analysis shows that rounding cannot hide a better fit.", [AP+":illum_gauss",CO+":residual_true",CO+":residual",CO+":fit_zpoly"])

p("The Effelsberg telescope with a gaussian illumination in binary64",
  "For the Effelsberg telescope with leg angle up to 45 degrees and sine at least 1/1000, a gaussian illumination centred in the dish with a taper from -100 to 0 dB, on grids whose samples are clear of the edges: the aperture field is within 2 l, every entry of the radiation pattern within 2 (l + f) and of the power pattern within 5 (l + f) of the exact ones, relative to the largest values such an aperture can give, with the loss l of the gaussian illumination on the manual telescope and f the accuracy of the Fourier transform; covered points are exactly zero; radiation_pattern raises the same exceptions. Modelled maps, residuals and sums of squares are within the same bounds as with the parabolic illumination, binary64 ranks two vectors as it should when they differ by more than twice the error, and an optimizer that minimises the cost in binary64 gives answers that are best over the reals up to that amount, as the properties on recovered parameters need.",
  "all accurate libraries, transforms and orders of additions, all such leg angles, tapers and centres, triangular coefficient arrays, sets of parameter vectors, observations of three maps of any number of points, configurations", "the mask and the taper are both rounded, for every angle, taper and grid, and an optimizer compares infinitely many rounded costs; only an analysis bounds them together.", [AP+":illum_gauss",TG+":block_effelsberg",TG+":opd_effelsberg",AP+":radiation_pattern",CO+":residual_true",CO+":fit_zpoly","scripts/pyoof_effelsberg.py"])

p("A look-up file is read as it is written, whoever wrote it",
  "For any file whose text before the end mark **ENDE** is lines of 14 words, separated by any number of blanks and with any blank lines between them, made of digits, letters and minus signs, the last eleven words of each line being integers: read_lookup(interp=False) returns, for each elevation and actuator, the integer that the line of the actuator holds in the column of the elevation, if there are 96 lines; if there is one line, it is repeated for all actuators; with any other number of lines it raises an exception. The elevations are always 7, 10, 20, 30, 32, 40, 50, 60, 70, 80 and 90 degrees, what follows the mark is ignored, and nothing is written. Every table of integers that write_lookup writes is in that format.",
  "all texts in that format, all file systems", "the texts are unbounded: spacing, blank lines, signs, leading zeros and what follows the mark all vary.", [AC+":EffelsbergActuator.read_lookup"])

if __name__=="__main__":
    here=os.path.dirname(os.path.abspath(__file__))
    with open(os.path.join(here,"..","properties.jsonl"),"w") as f:
        for x in P: f.write(json.dumps(x)+"\n")
    print(len(P))
