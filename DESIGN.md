# Design of the formal model of pyBSM

Prover: Coq 8.16.1. Everything is under `rocq/theories` (logical name `Verif`).
Build: `cd rocq && coq_makefile -f _CoqProject -o Makefile && make -j4`.

## 1. Layout

* `Base_*.v`   – numeric and array vocabulary (no pyBSM content).
* `Model_*.v`  – transcription of the Python functions, one Coq definition per
  Python function, in the order of the source, each with `file:lines`. No proofs.
* `Spec_*.v`   – independent specifications (plane geometry, integrals, discrete
  transforms, averages, ...). They mention no model function; where a
  specification is about a camera or a scene it uses the model's records (fields only).
* `Proof_*.v`  – lemmas.
* `Prop_*.v`   – the theorems listed in `MANIFEST.json`, each closed by `exact`,
  with `Print Assumptions` under it and one `Example` that instantiates its
  hypotheses on a concrete, non-trivial input.

* `Num_Test*.v` – validation of the models, no property: each model is evaluated on
  the parametrised cases of `/repo/tests` and compared with the values and exceptions
  those tests expect (`Spec_Test` renders their assertions). The head of each file
  says which cases are left out and why.

## 2. How Python/numpy is modelled

| Python/numpy | model |
|---|---|
| Python `float` scalar | real number `R` |
| numpy float64 scalar or array element | extended real `xr` = finite real, `PInf`, `NInf`, `NaN` |
| exception | `res A` = `Ok a` or `Err e` with the exception class |
| Python `/` by zero | `Err ZeroDivisionError` |
| numpy `/` by zero, `arccos`/`sqrt`/`log10` out of domain | `PInf`/`NInf`/`NaN` as IEEE prescribes |
| `np.nan_to_num` | NaN to 0, infinities to the largest binary64 number |
| comparisons with NaN | false |
| 1-D arrays | lists, with numpy broadcasting (equal lengths or length 1, else `ValueError`) |
| 2-D arrays | record (rows, cols, index function) |
| elementwise functions of (u, v) grids | function of one grid point, `R -> R -> xr` (numpy applies it to every grid point) |
| scalars whose division differs by type | `skind` = `Py` (raises on 0) or `Np` (inf/nan), chosen where the caller's type is known |
| `int()`/`np.round` of inf or nan | `Err OverflowError` / `Err ValueError` |
| nan or inf where the model continues with reals | `Err NonFinite` (a marker, not a Python exception; the comment at the use says what Python does next) |
| random numbers | an argument (`draws`): a count for each rate and pixel, a standard normal for each pixel |
| mutable objects (Scenario, Sensor) | record passed and returned explicitly (state passing) |
| `x**2.0` | `x*x`; other constant fractional powers: `Rpower` with the 0 and negative cases explicit |

Simplifications, all stated again where they are used:

1. *Real arithmetic instead of binary64.* Rounding, overflow and signed zero are
   not modelled in the `xr` files. Where rounding decides the observable
   behaviour (C07, the rounding remark of C32, C110, C115, C117, C118, C122, C123) a separate model over Coq's
   binary64 (`SpecFloat`/`PrimFloat`) is used.
2. `np.sinc(0)` is 1 (numpy substitutes 1e-20 for 0, which yields 1.0 in binary64).
3. `tan(pi/2)` is `PInf` in the model; in binary64 it is 1.6e16. The only use is
   under `arctan`.
4. Library routines are modelled by their mathematical contract:
   `np.interp`, `np.trapz`, `np.percentile` (linear), `np.fft`, `interp1d`,
   `interp2d` (linear, with its sorting of query coordinates), `griddata`
   (linear, either diagonal may be chosen in each cell), `cv2.filter2D`
   (correlation, reflect-101 border), `cv2.resize` (bilinear, half-pixel centres,
   replicated border), `scipy.special.jn` (Bessel's integral),
   `np.random.poisson/normal` (only their parameters).
5. `np.arange` with float steps is modelled by its exact-arithmetic length
   (C122 has the length in double precision: 50 for the ratings, as here).
6. `interp1d` (scipy 1.13.1): points sorted stably, a line through two
   neighbouring points, extrapolation with the outermost lines; one point is
   accepted and gives nan. `np.random.poisson` raises ValueError for rates below
   0 or above its largest rate.
7. The contents of the `.bin` atmosphere files are a parameter (`index -> table`);
   the decoder `fileDecoder.csv` is transcribed row by row.

Not modelled: drawing itself (of `plot_common_MTFs` and `plot_noise_terms` the plotted
numbers, labels and calls are modelled in `Model_Plot`, C105 and C106), `RefImage.show`,
logging/warnings other than their trigger condition, file-system and genfromtxt
parsing, the `is_usable` import guard for OpenCV (assumed present), samples of
random noise, complex-dtype bookkeeping.

## 3. Trusted base

* Coq's kernel (and `coqchk`).
* Axioms: only those of Coq's standard library that `Print Assumptions` lists:
  for the real-number files `ClassicalDedekindReals.sig_not_dec`,
  `ClassicalDedekindReals.sig_forall_dec`, `functional_extensionality_dep`, and
  where Coquelicot's integrals or Flocq's rounding are used
  `Classical_Prop.classic` (and possibly choice principles of `Coq.Logic`).
  Numeric-enclosure theorems proved with the Interval library additionally list
  the primitive integer/float axioms of `Coq.Numbers`/`Coq.Floats`. The integer
  and list files (database, cache, crop, FFT shift) are closed under the global
  context. No axiom is added by this development.
* The correspondence between the Python text and the `Model_*.v` files, and the
  library contracts of item 4, which were written by reading. For C106 this
  includes the keyword arguments of matplotlib's `annotate` (versions 3.5 to 3.9,
  the range `pyproject.toml` and `poetry.lock` allow).

* For C07 and C110: Python floats are IEEE binary64 with round to nearest even,
  `x**2` and `x**2.0` are the rounded product `x*x` (numpy and the C library both
  do this), `np.cos(0.0)` is 1 and `np.arccos` of a number above 1 is nan.

## 4. Plan per property

Format: what is modelled – how it is proved.

* C01: `Model_Geo` – expand both sides of the law of cosines against 2-D vectors (`Spec_Geo`); monotone because cos is decreasing on [0,pi].
* C02: `Model_Geo` with Python/numpy scalar kinds – Cauchy-Schwarz gives the acos domain; iff-characterisations of the error and NaN cases.
* C03: `Model_Geo` list model of linspace/reverse – point-on-segment vector computation, for all indices.
* C04: same – convexity of the Euclidean norm.
* C05: same – sign of the law-of-cosines numerator; angle sum in the triangle.
* C06: `Model_Noise` – Cauchy-Schwarz by induction over the list of entries.
* C07: binary64 model – witness by computation, `_refuted`; for entries on a common dyadic grid every partial sum is exact (`Proof_Kernel64`, with the rounding lemmas of Flocq).
* C08: `Model_Noise` – RInt of x^2 over one step; monotonicity of Rpower.
* C09: `Model_Db` with the 3430-row decoder – NoDup of keys by kernel computation, then general list lemma.
* C10: `Model_Db` – case analysis; files of the wrong size raise ValueError when read, so an IndexError for every directory shows that none was read.
* C11: `Model_Db` parametric in the table contents – bracket of a node is the node.
* C12: `Model_Db` – weights in [0,1] summing to one.
* C13: same.
* C14: `Model_Db` – `_refuted` for the interval, exact success set by case analysis over the altitude grid.
* C15: `Model_Db` – algebra on each cell plus node agreement.
* C16: `Model_Scenario` state machine parametric in the loaders – invariant `cache = None \/ cache = load(params)` by induction over histories.
* C17: same, with a load counter.
* C18: same.
* C19: heap model with one array cell – witness history, `_refuted`.
* C20: `Model_Sensor` constructor – algebra; `_refuted` for the fill factor.
* C21: `Model_Sensor` with percentile on sorted lists – monotonicity of linear interpolation of a sorted list; the value of a percentile for any sorted rearrangement (`Proof_Percentile`).
* C22: `Model_Sensor` – algebra; lookup in the decoder for the default altitude; `Proof_Baseline` for the comparison with the sampling guide (atan x <= x).
* C23: `Model_Rad` – positivity of exp-1; monotone.
* C24: `Model_Rad` – algebra; exp(x)-1 >= x.
* C25: `Model_Rad`.
* C26: `Model_Rad` list identity.
* C27: `Model_Rad` with broadcasting.
* C28: `Model_Rad` + `Base_Np` interp – induction over the table.
* C29: `Model_Rad`.
* C30: `Model_Rad` from C23.
* C31: `Model_Rad` + trapz lemmas (induction).
* C32: `Model_Rad` over xr; separate binary64 witness for the rounding remark.
* C33: `Model_Rad`, full function.
* C34: same, max is commutative.
* C35: same.
* C36: same.
* C37: `Model_Rad` loop over 100 reflectances.
* C38: same.
* C39: same.
* C40: same, `_refuted`.
* C41: `Model_Otf` – acos/sqrt domain case split; derivative sign for monotonicity.
* C42: `Spec_Otf` overlap integral – derivative of the closed form, fundamental theorem.
* C43: `Model_Otf` – three regions; overlap of annuli as integrals.
* C44: `Model_Otf` – sin(2 acos x).
* C45: `Model_Otf`, Bessel by integral – domain split; limit of J1(a)/a.
* C46: `Model_Otf`; the exact values asserted for C46-C63 are in `Proof_OtfX`.
* C47: `Model_Otf`, Coquelicot derivative.
* C48: `Spec_Otf` integral of cos over the pixel.
* C49: `Model_Otf` loop – Dirichlet kernel by induction on n.
* C50: `Model_Otf`.
* C51: as C48.
* C52: `Model_Otf` – convexity of either triangle's interpolation, triangle inequality for the DFT; `Spec_Reading`/`Proof_Reading`: every value as barycentric weights in the cell of the table that contains the folded frequency, for either diagonal.
* C53: same, `_refuted`.
* C54: `Model_Otf`; Interval for the 0.043.
* C55: `Model_Otf`.
* C56: same.
* C57: `Model_Otf` complex sum by induction.
* C58: `Model_Otf`.
* C59: `Model_Otf` generic in the function – induction over distinct wavelengths.
* C60: same, `_refuted` with witness lists.
* C61: `Model_Otf` – Rpower algebra, trapz monotonicity.
* C62: `Model_Otf`.
* C63: `Model_Otf`.
* C64: `Model_Otf` common_OTFs record; every factor against its physical formula (`Spec_Chain`, `Proof_SystemX`). `Proof_Wide`: at a frequency within the cutoff of the shorter wavelength but beyond eight times that of the longer one, the exponent of the short-exposure turbulence formula is positive at the longer one and grows with the aperture.
* C65: same.
* C66: `Model_Img` – interp2d at grid nodes.
* C67: same, `_refuted`.
* C68: `Model_Img` – sum of a scaled array.
* C69: `Model_Img` loop as recursion – invariant. `otf_to_psf_k` keeps the kind of number of both spacings; `otf_to_psf` is the call in apply_otf_to_image.
* C70: `Model_Img` index arithmetic modulo n.
* C71: `Model_Img` Python slice semantics in Z.
* C72: `Model_Img`.
* C73: `Model_Img` – convex combinations; tent weights and mirrored continuation (`Spec_Blur`).
* C74: composition of 68, 72, 73; flat OTF gives a one-point kernel (`Proof_ImgX`).
* C75: `Model_Met` – oddness of sin, linearity of trapz.
* C76: `Model_Met`.
* C77: `Model_Met` + interp monotonicity.
* C78: `Model_Met`.
* C79: `Model_Met`, Interval for the witness; `Spec_Rating` holds the published equation, `_refuted` with the exact difference.
* C80: `Model_Met`, Interval for the test case; reversed edges in `Proof_Rating`, `_refuted`.
* C81: `Model_Met` state passing – `_refuted`.
* C82: same, `_refuted` with witness kernel.
* C83: same – idempotence of the state update.
* C84: `Model_Met` – monotonicity of signal_rate.
* C85: `Model_Met` + C78; whole runs of niirs and niirs5 with another number of frames (`Proof_Stack`), strict monotonicity in the reciprocal signal to noise ratio.
* C86: `Model_Met` linspace/meshgrid.
* C87: `Model_Sim` – clip, interp1d on sorted points.
* C88: `Model_Sim` – 0..1 table covers clipped reflectances; from the constructor of the reference image on, with given and with default tables (`Proof_SimCal`).
* C89: `Model_Sim` complex algebra; completing the square.
* C90: `Model_Sim` – percentile, clip, round half even.
* C91: `Model_Sim`.
* C92: `Model_Sim` – atan x <= x.
* C93: `Model_Sim`/`Model_Geo` – triangle inequality.
* C94: `Model_Img`/`Model_Otf` – the resampled kernel has no rows; `CvError`.
* C95: `Model_Met` – every division, root and index of niirs discharged from `good_camera`/`good_atmosphere` (`Spec_Met`); the successful run is taken apart into contrast, transfer function, edges and elevation (`Spec_Quality`, `Proof_MetX`); finite ratings for six pixels per resolution element (`Proof_Rated`).
* C96: `Model_Sim` – weights all zero leave an empty array; percentile of a constant; rate check of the Poisson draw.
* C97: `Model_Sim` – C70 with 1501 odd; the OTF is even and real (`Proof_Even`).
* C98: `Model_Sim` – the crop of the PSF ends at one pixel, normalised to 1; convolution with it is the identity.
* C99: `Model_Sim` – evenness and sign of every factor at every wavelength (`Proof_Even`).
* C100: `Model_Sim` over `Model_Scenario` worlds.
* C101: `Model_Scenario` – induction over histories, including in-place edits (`Proof_Store`).
* C102: `Model_Rad` – elementwise value against Planck's law (`Proof_RadX`).
* C103: `Model_Otf` – `Spec_Defocus` phase-weighted overlap integral; both sides enclosed with Interval at one frequency (`Num_Defocus`), `_refuted`.
* C104: `Model_Img` – `Spec_Blur` convolution; the inverse transform of a pure phase is a point (roots of unity), `_refuted` with a one-column displacement (`Proof_ImgX`).
* C105: `Model_Plot` – the closed form of the SNR metrics split into scene, path, self emission and dark rate (`Proof_Plot`).
* C106: `Model_Plot` – every component is finite with one entry per grid point (`common_parts`), slices along the axes pick grid points; `_refuted` for the return value.
* C107: `Model_Db` – the table is checked entry by entry (finite), the horizon of each altitude enclosed with Interval (`Num_Horizon`), visibility reduced to one inequality (`Proof_Horizon`).
* C108: `Model_Met` – a run with other electronics is the same run with another SNR (`niirs_renoise`); signal over the square root of the noise power; each rating as a function of the SNR (`Proof_Trade`); the sign of the contrast from the ratio of two Planck curves, wavelength by wavelength.
* C109: `Model_Met`, `Model_Otf` – each factor of the system transfer function by value, compared point by point; where the short-exposure turbulence model would grow the aperture factor is zero (`Proof_Dull`); the edge response is a trapezoid sum with non-negative weights (`Proof_DullRun`).
* C110: `Model_F64` (binary64 versions of `curved_earth_slant_range`, `nadir_angle` and the slant range of `simulate_image`; np.cos and np.arccos are parameters with the contracts of `Spec_F64`) – exact altitudes by Flocq's rounding (`Proof_Round`: every primitive operation as `rnd` of the real one; a value in the format is not rounded), the 244981 decimetre altitudes by kernel computation over primitive floats, the consequences over the real model for any slant range below the altitude (`Proof_NanSpread`).
* C111: `Model_Met`, `Model_Otf`, `Model_Rad` – the turned camera is a record with the x and y fields exchanged (`Spec_Turn`); radiometry by commutativity of the pixel area, each transfer function factor by value at (u, v) and (v, u), the grid is symmetric about its diagonal (`Proof_Turn`); an oblong detector grid as witness (`Proof_TurnDemo`).
* C112: `Model_Sim`, `Model_Sensor`, `Model_Img` – the stable sort, the search index and the segment slope commute with a x + b (`Proof_Gain`); percentiles of a negative are those of the reversed order statistics; for explicit tables the unique piecewise linear function of C87; blurring by linearity and preservation of constants (`Proof_GainSim`); two-pixel image (`Proof_GainDemo`).
* C113: `Model_Session` – a session holds any number of `sensor`s and `world`s; a statement is a call of `niirs`, `niirs5` or `simulate_image`, a scenario operation of `Model_Scenario` or an arbitrary change of a sensor; exceptions are caught by the program. Each object sits in its own slot, so two names for one object are the same index, and the arrays of different scenarios are not shared. Non-interference by a two-run relation on scenarios that ignores the four attributes (`Proof_Session`); replay by an invariant over all call prefixes: sensors equal up to the sharpening filter, scenarios of the same geometry whose cache is at most filled by the stored file (`Proof_Replay`).
* C114: `Model_Sim`, `Model_Img` – `flip` exchanges rows and columns (`Spec_TurnSim`), the camera is `turned` as for C111. Every array routine (inverse transform, resizing, cropping, correlation, resampling, noise) commutes with `flip`; the transfer function on the 1501 x 1501 grid is mirrored about the rising diagonal by C111 and, being even, also about the falling one; percentiles do not depend on the order of the pixels (`Proof_TurnSim`). Witness: a camera shaking along x with oblong pitch (`Proof_TurnSimDemo`).
* C115: `Model_F64Size` – the size computations of `otf_to_psf` and `resample_2D` and of the pictures simulated with the estimated camera, in binary64 (`f_int` is Python's int, `f_int_round` is int(np.round)). `Proof_F64Size` tracks each quantity as within k roundings of its exact value (`near`, factors of 1 + 2^-52), so sizes follow from the exact quotient; the refutation and the counts are computed. `Proof_Native` – the simulation with matched pixels (real numbers): equal spacings make `resample_2D` the identity. Witness: `Proof_NativeDemo`.
* C116: `Proof_Centre` – point symmetry is kept by the inverse transform of a real symmetric OTF on an odd number of samples, by bilinear resizing, by scaling and by the centred crop; the first moment of a symmetric kernel about the anchor of `filter2D` is 0 or -1/2, which displaces planes of brightness. `kept_middle` lists the sizes for which the crop is centred. `Proof_CentreX` – OTF one everywhere, kernel computed exactly for the frame one pixel narrower than its samples and for frames of 5, 7 and 9 pixels; the simulation with matched pixels. Witnesses: `Proof_CentreDemo`. `Proof_Baseline` – the frame of the estimated camera is 750 wavelength / (4 * 540 nm) pixels wide, independent of picture and altitude.
* C117: `Model_F64Db` – the two loaders in binary64, with `f_decimal n d` (the correctly rounded quotient) for the decimal numbers of `fileDecoder.csv` and the element formula of `np.linspace`; columns are functions (row, column) -> float, the conversion of single precision radiances is left out. `Proof_F64Db` – every row of the table is checked by computation: its stored value equals the divided nearest double and, with a margin, no other double. `Proof_F64Blend` – the two weights lie in [0, 1] and sum to one after rounding, which bounds a rounded combination by the largest power of two above its parts. `Proof_F64Load` – the structure of a successful load (two bracketing altitudes, two bracketing ranges) and the comparison with `Model_Db.load_interp`. Witnesses: `Proof_F64DbDemo`.
* C118: `Model_F64Db` – `band_f64`, the two selections on the wavelength column; `emissive_f64`; the bands of two cameras of the repository. `Proof_F64Band` – every wavelength of the grid is within a relative 2^-51 of its mark (computed), hence within 2^-48 after interpolation; the counts are computed over all marks and the whole-metre altitudes up to 1 km.
* C119: `Model_Img` – `otf_to_psf`, `get_middle`, `cv_resize`, `filter2D`, `apply_otf_to_image`. `Spec_Apply` – the transform, the window and the kept range without model functions; `Proof_Apply` computes every branch; the mirrored continuation exists and is unique, so is the window.
* C120: `Model_Sim` with everything below it. `Spec_Whole` – spectrum, seeing, product of transfer functions; `Proof_Whole` puts C88, C64, C61, C62, C52, C03 and C119 together; the seeing does not depend on the chosen ground point.
* C121: `Model_Met` with everything below it. `Spec_Rating` – charge, share of the exposure, signal-to-noise ratio, the three equations; `Proof_Rating` puts C95, C35, C64, C52, C02 and C78-C80 together with `system_value` of C120.
* C122: `Model_F64Slice` – `np.linspace`, the difference of its first two entries, the length `np.arange` computes (a ceiling of a rounded quotient) and its entries, in binary64. `Proof_F64Slice`: the difference is a multiple of 2^-53, so an odd size gives a quotient that either is at most the integer or rounds above it.
* C123: `Model_F64Aperture` – `circular_aperture_OTF` with every operation rounded; arccos, sin, tan and arctan are parameters with the contract `good_libm` (an instance, correct rounding, is built in `Proof_F64Libm`). `Proof_F64Aper1`/`2`: moduli of continuity of the three terms; `3`–`5`: their rounding errors and the formula with the two tests; `6`/`7`: the grids, by computing the two tests at each point (`vm_compute`); `8`: no obscuration. Division by zero other than of `lambda0` and overflow do not occur for the inputs considered.
* C124: `Model_Otf`, `Model_Geo`. `Proof_Fried`: the trapezoidal rule is the mean of two Riemann sums; `Proof_FriedBv`: its error for a function of bounded variation, the vertical path, the primitive of each term of the profile; `Num_Fried`, `Num_FriedPath`: the integrals in kilometres enclosed with Interval up to 60 km, the rest bounded by 10^-8/x^2, and the variation of the integrands term by term. The statements use Coquelicot's `is_RInt` and `is_lim`.
* C125: `Model_Defaults` – the signature of `Scenario.__init__` with its defaults, Python's binding of positional and keyword arguments, truth of `interp`; the object is `init` of `Model_Scenario`. Proved by cases on the number of positional values.
* C126: `blackbody_radiance1` of `Model_Rad` with the code's constants. Substituting x = hc/(lambda k T) turns the curve into x^5/(e^x-1), whose derivative changes sign between 4.96511 and 4.96512, and the integral into that of x^3/(e^x-1), bounded on [1/100, 40] by interval arithmetic and outside by x^2 and by 1.6 x^3 e^-x (`Num_Planck`).
* C127: `Model_F64Rad` – blackbody_radiance, total_radiance, at_focal_plane_irradiance, photon_detection_rate, np.trapz and signal_rate with every operation rounded. `Proof_F64Rel`: on a logarithmic scale each operation on positive numbers adds one rounding, a sum takes the worse of its terms; exp multiplies the count by twice its argument, the subtraction of 1 doubles it. About 8300 roundings in all, of which 6200 come from exp.
* C128: `signal_rate`, `blackbody_radiance` and `sensor_other_irradiance` of `Model_Rad` against `is_RInt` of `thermal_spectrum` (`Spec_Sample`). On one cell the trapezoid minus the integral is the integral of (x-a)(b-x)/2 times the second derivative; for the photon curve that derivative is at most ((x+5)/lambda)^2 times the curve itself, x = hc/(lambda k T), so the error is relative cell by cell and adds up over cells and emitters (`Proof_Sample`).
* C129: `common_OTFs`, `polychromatic_turbulence_OTF`, `coherence_diameter` and the defocus radii of `Model_Otf`, errors as values. Each step is classified by the errors it can return: aperture and wind functions with numpy wavelengths never raise, `weighted_by_wavelength` returns IndexError exactly for `bad_bands` (`Spec_Raises`), array products only ValueError; the classification is carried through the chain (`Proof_Raises`). The error cases of the unit tests are Examples.
* C130: the same functions of `Model_Otf` over the extended numbers of `Base_XR` (x/0 is a signed infinity or NaN as in IEEE division, NaN spreads). Case analysis on the sign of each quotient; the aperture with eta = 1 uses phi = 2 asin x, so that the three overlap terms cancel to 0/0 everywhere but at zero frequency (`Proof_Nonfinite`).
* C131: `edge_response` and `relative_edge_response` of `Model_Met` against the Riemann integral (Coquelicot) of `Spec_EdgeError`. sin(c w)/w is written as the integral of c cos(c w t) over t in [0, 1], which gives its bound c and its Lipschitz constant c^2/2; a Lipschitz integrand is continuous, and each trapezoid is off by at most K h^2/4; the shifted frequencies and the missing last cell are added. The lens is Lipschitz by the substitution w = W cos t. The refutation uses a triangle one frequency step wide (`Proof_EdgeError`). The overshoot by C76 and the error at the outermost place (`Proof_Overshoot`).
* C132: the closed form of `niirs5` (C121) combined with C131. The aperture is the overlap integral of `Spec_Otf`: moving a disc of radius r by d changes the part of a chord gained by at most r d in total (the gain is on one side of the middle line, where it is a difference of two strips), so the overlap of two annuli has slope 2 (1 + eta). Sinc, Gaussian and wavefront factors by mean values. The turbulence factor is a mixture of a long and a short exposure factor, both of the form exp(-3.44 z^5 (1 - a b)) with z^3 and b^3 linear in the frequency, differentiated in z; the coherence length grows faster than the wavelength, so the shortest wavelength is the worst. Products and spectral means keep bounded slopes (`Proof_EdgeSystem`).
* C133: `giqe3`, `giqe4`, `giqe5`, `relative_edge_response` and `niirs5` of `Model_Met`; `within` and `relative_share` of `Spec_Conditioning`. The cube root mean of two edge responses keeps a common factor, its logarithm moves by log10 k, the fourth power by 4 M^3 times that, and exp(-1.9/s) by 1.9 |1/s - 1/s'| (`Proof_Conditioning`). Across the threshold of GIQE 4 the smaller edge response is still above 0.9/k, which bounds the effect of the other coefficients. The slope of the blurred edge is bounded from below by the part of the integral where a transfer function of slope L starting at 1 must still be positive, with sin z >= 2z/pi, which turns the absolute error of C131 and C132 into a relative one (`Proof_Relative`).
* C134: `atm_rows`, `load_band`, `total_radiance`, `giqe_radiance`, `path_radiance`, `niirs`, `niirs5`, `reflectance_to_photoelectrons` and `simulate_rest`. The array is addressed by row and column (`Spec_Columns`), so a wrong column in `atm_rows` is visible. Every function of a row is unchanged when its surface emission is set to 0, and cropping to the band commutes with that (`Proof_Columns`). Added after edits of `atm_rows` survived: the other theorems state their atmosphere through `atm_rows`.
* C135: `band`, `load_band`, `contrast_part`, `niirs`, `niirs5`, `reflectance_to_photoelectrons` and `simulate_rest`. `sees_nothing` and the stored wavelengths are spelled out in `Spec_Blind`. An empty crop runs through every array operation and fails at the smallest wavelength (`contrast_nothing`); the condition on the band is a search for the switch between two neighbouring samples (`switch`). Added after the exception of an empty wavelength table could be changed unnoticed.
* C136: `sensor_opt_trans`, `sensor_qe`, `sensor_other_irradiance` and the four analyses that call them. `Proof_Tables` shows once that such a camera raises the same exception for every list of wavelengths (`always`) and carries this through `contrast_part` and `pe_at`; `Spec_Tables` spells out the malformed tables and what has been written to the scenario. `Proof_Focal` (focal length 0): every transfer function is still computed, because NumPy divides by zero without raising; the first Python division by the focal length raises, in the filter for kernels of more than one row and otherwise in the pixel angle.
* C137: `Spec_Stray` replaces single parameters of a sensor or scenario; the theorems say that the analyses do not notice. The field `s_other_irr` is stored by `sensor_init` as in the code and read by no function, which is what the code does: photon_detector_SNR and reflectance_to_photoelectrons compute a local `other_irradiance` from the temperatures of shield, optics and filter.

## 5. Specifications

* `Spec_F64Rad`: accuracy of exp, power and sum; `close`, sizes of inputs.
* `Spec_Geo`: vectors in the plane through the Earth's centre.
* `Spec_Noise`, `Spec_Rad`: Planck's law, response curves (`reads`), electrons per second, charge (`collected`), trapezoids.
* `Spec_Otf`: overlap of discs and annuli as integrals, average of cosines over a pixel.
* `Spec_Filter`, `Spec_System`: discrete transform of a kernel; what a sound spectrum, optics and path are.
* `Spec_Chain`: the published formula of each factor of the imaging chain, spectral mean, Fried length.
* `Spec_Defocus`: overlap of two pupils with the linear phase of a focus error.
* `Spec_Img`: inverse transform, correlation with a mirrored border, rounding half to even.
* `Spec_Quality`: lit rows, standard contrast, axis profiles, edge slope and overshoot.
* `Spec_Blur`: tent interpolation, mirror continuation, convolution, displacement phases.
* `Spec_Apply`: the position of zero frequency, the resampled point spread function, the windows of the crop.
* `Spec_Whole`: photoelectron spectrum, Hufnagel-Valley profile and coherence diameter along the straight path, the product of transfer functions, additive noise.
* `Spec_Met`: edge response, visible rows, sound camera and atmosphere.
* `Spec_Sim`: calibration line, restoration error, display level, moments of shot and normal noise, exposure.
* `Spec_Plot`: sums in quadrature, whole part, cycles per millimetre, what each chart shows.
* `Spec_Horizon`: a line of sight that stays above the ground; the altitudes of the README.
* `Spec_Trade`: noise power of the electronics, copies of a camera or scenario with other noise, blur or air; pixels per resolution element.
