{"id": "C01", "title": "Slant range is the straight-line distance over a circular Earth", "statement": "curved_earth_slant_range(ht, hs, g) equals the Euclidean distance between a target at height ht and a sensor at height hs placed on a circle of radius r_earth with central angle g/r_earth. It is therefore never NaN, is symmetric in the two heights, is |hs-ht| when g=0, and strictly increases with g up to half the circumference.", "quantifier": "all real heights above the Earth's centre and all ground ranges", "why_tests_cant": "a test compares a handful of numbers; agreement with Euclidean geometry has to hold for every height pair and ground range", "anchors": ["src/pybsm/geospatial.py:curved_earth_slant_range"]}
{"id": "C02", "title": "Nadir angle is the true angle at the sensor and is never NaN for a real triangle", "statement": "Feeding the slant range of curved_earth_slant_range into nadir_angle returns a number in [0, pi] equal to the angle between the direction to the Earth's centre and the direction to the target. A target straight below gives 0. nadir_angle raises ZeroDivisionError exactly when 2*(r_earth+hs)*slant_range is 0 and returns NaN exactly when no triangle with those sides exists.", "quantifier": "all heights, ground ranges and slant ranges", "why_tests_cant": "arccos is undefined outside [-1,1]; only a proof shows the argument can never leave the interval for any geometry", "anchors": ["src/pybsm/geospatial.py:nadir_angle", "src/pybsm/geospatial.py:curved_earth_slant_range"]}
{"id": "C03", "title": "Slant path starts at the target and ends at the sensor", "statement": "altitude_along_slant_path returns 10000 samples; z_path runs from 0 to slant_range in equal steps; h_path[0] is h_target, h_path[-1] is h_sensor, and h_path[i] is the height above the circular Earth of the point of the straight segment lying z_path[i] metres from the target. No sample is NaN.", "quantifier": "all geometries (heights, slant ranges) that form a triangle, and all sample indices", "why_tests_cant": "10000 samples per geometry and a reversed array: a test only looks at a few of them for one geometry", "anchors": ["src/pybsm/geospatial.py:altitude_along_slant_path"]}
{"id": "C04", "title": "Heights along the slant path stay below the higher end point", "statement": "Every height returned by altitude_along_slant_path is at most max(h_target, h_sensor) (the segment is inside the disc through the higher end).", "quantifier": "all triangle geometries and all sample indices", "why_tests_cant": "a universally quantified convexity statement over continuous inputs", "anchors": ["src/pybsm/geospatial.py:altitude_along_slant_path"]}
{"id": "C05", "title": "Elevation angle used by the image-quality equations", "statement": "The elevation angle pi/2 - nadir_angle(0, altitude, slant) used by niirs/niirs5 satisfies sin(elev) > 0 for every sensor above the ground, so the ground-plane GSD is always finite. It differs from the elevation angle measured at the target (the documented meaning) by exactly the central angle ground_range/r_earth.", "quantifier": "all altitudes > 0 and ground ranges", "why_tests_cant": "needs trigonometric reasoning over a continuum; tests only check single numbers that were produced by the code itself", "anchors": ["src/pybsm/geospatial.py:nadir_angle", "src/pybsm/metrics/functional.py:niirs", "src/pybsm/metrics/functional.py:niirs5"]}
{"id": "C06", "title": "Noise gain is the L2 norm of an accepted kernel", "statement": "noise_gain raises ValueError exactly when the kernel entries do not sum to 1 and otherwise returns sqrt(sum k^2). The result is at least 1/sqrt(number of entries), equals that bound only for the box kernel, is at most 1 for kernels without negative entries, and is exactly 1 for the identity kernel.", "quantifier": "all kernels of any size", "why_tests_cant": "kernels of arbitrary size and content; Cauchy-Schwarz is not testable", "anchors": ["src/pybsm/noise.py:noise_gain"]}
{"id": "C07", "title": "Float rounding in the kernel normalisation check", "statement": "Because the check compares np.sum(kernel) with 1.0 in binary64, kernels whose decimal entries sum to exactly one can be rejected. The claim 'every kernel whose written entries sum to one is accepted' is false of the binary64 model. A kernel whose entries are multiples z/2^e with sum of |z| at most 2^53 is rejected exactly if its sum is not one, and its gain is then the root of the sum of squares, rounded once; in particular this holds for entries written in quarters.", "quantifier": "kernels of binary64 numbers", "why_tests_cant": "tests use kernels such as ones or sums of powers of two which are exact; the rejected ones depend on rounding", "anchors": ["src/pybsm/noise.py:noise_gain"]}
{"id": "C08", "title": "Quantization noise is the standard deviation of a uniform one-count error", "statement": "quantization_noise(r, b)^2 is the variance of an error uniformly distributed over one ADC step r/(2^b-1); it is non-negative for r >= 0, linear in r, strictly decreasing in b, and b = 0 gives inf (r>0) or NaN (r=0) instead of raising.", "quantifier": "all ranges and bit depths", "why_tests_cant": "relation to an integral over all error values", "anchors": ["src/pybsm/noise.py:quantization_noise"]}
{"id": "C09", "title": "Exact database lookup returns the one matching atmosphere or raises IndexError", "statement": "load_database_atmosphere_no_interp(alt, g, ihaze) succeeds exactly when the decoder table lists (alt, g, ihaze) and the file it names holds 1371 x 5 values (written column by column); the table contains no duplicate key so the answer does not depend on row order; an unlisted key or a missing file raises IndexError, a file of another size (such as the pointer left by a checkout without git-lfs) raises ValueError.", "quantifier": "all altitudes, ground ranges, ihaze values; all 3430 decoder rows; all contents of the atms directory, missing and damaged files included", "why_tests_cant": "the input space is infinite and the table has 3430 rows; tests hit a few", "anchors": ["src/pybsm/utils.py:load_database_atmosphere_no_interp", "src/pybsm/atms/fileDecoder.csv"]}
{"id": "C10", "title": "Interpolating loader rejects out-of-range requests", "statement": "load_database_atmosphere raises IndexError for every altitude outside [2, 20000] m or ground range outside [0, 300000] m, whatever the state of the database files (so without reading one); inside that range it returns an atmosphere or raises IndexError, unless a file is damaged (ValueError).", "quantifier": "all altitudes and ground ranges", "why_tests_cant": "infinite input space", "anchors": ["src/pybsm/utils.py:load_database_atmosphere"]}
{"id": "C11", "title": "Interpolation is exact at database nodes", "statement": "When the altitude is one of the grid altitudes and the ground range is one of the grid ranges, load_database_atmosphere returns exactly what load_database_atmosphere_no_interp returns (including its exception).", "quantifier": "all grid altitudes, grid ranges, ihaze values and all database contents", "why_tests_cant": "the database contents are a parameter; must hold for whatever the binary files contain", "anchors": ["src/pybsm/utils.py:load_database_atmosphere", "src/pybsm/utils.py:load_database_atmosphere_no_interp"]}
{"id": "C12", "title": "Interpolated atmospheres stay between the bracketing database atmospheres", "statement": "Whenever load_database_atmosphere succeeds, each entry of the result is a convex combination of the same entry of at most four stored atmospheres, whose altitudes and ranges are the tightest grid values around the request; hence transmission stays in [0,1] if the stored transmissions do.", "quantifier": "all successful requests, all 1371x6 entries, all database contents", "why_tests_cant": "a bound over all inputs and all stored data", "anchors": ["src/pybsm/utils.py:load_database_atmosphere"]}
{"id": "C13", "title": "Interpolation keeps the wavelength column", "statement": "Column 0 of the interpolated atmosphere is the same wavelength grid (0.3 to 14 micrometres, increasing) as in every stored atmosphere.", "quantifier": "all successful requests", "why_tests_cant": "weights must sum to one for every request", "anchors": ["src/pybsm/utils.py:load_database_atmosphere", "src/pybsm/utils.py:load_database_atmosphere_no_interp"]}
{"id": "C14", "title": "Every altitude in the advertised range can be interpolated", "statement": "For every altitude in [2, 20000] m there is an atmosphere at ground range 0. FALSE: the code brackets with 32.55 m while the database stores 0.0325 km, so every altitude strictly between 2 and 75 m raises IndexError (ValueError if it first meets a damaged file). The exact success set is characterised: a request succeeds iff its altitude is not in (2,75) and both bracketing (altitude, range) cells are present in the decoder.", "quantifier": "all altitudes and ground ranges in the advertised range", "why_tests_cant": "the failing set is an interval between two grid nodes that the tests never visit", "anchors": ["src/pybsm/utils.py:load_database_atmosphere", "src/pybsm/atms/fileDecoder.csv"]}
{"id": "C15", "title": "Interpolation is piecewise bilinear and continuous", "statement": "Between neighbouring grid nodes the returned atmosphere is affine in altitude for fixed range and affine in range for fixed altitude, and the values obtained from the left and right cell agree at every node (no jumps).", "quantifier": "all requests, all database contents", "why_tests_cant": "continuity is a statement about limits at every node", "anchors": ["src/pybsm/utils.py:load_database_atmosphere"]}
{"id": "C16", "title": "Scenario.atm never serves a stale atmosphere", "statement": "After any sequence of attribute assignments (ihaze, altitude, ground_range, and the plain attributes) and atm reads, successful or failing, reading atm returns exactly what a freshly constructed scenario with the current parameters would return.", "quantifier": "all finite histories of operations, all database behaviours (including ones that raise)", "why_tests_cant": "cache coherence has to hold for every interleaving of reads, writes and failures", "anchors": ["src/pybsm/simulation/scenario.py:Scenario.atm", "src/pybsm/simulation/scenario.py:Scenario.altitude", "src/pybsm/simulation/scenario.py:Scenario.ground_range", "src/pybsm/simulation/scenario.py:Scenario.ihaze"]}
{"id": "C17", "title": "Scenario.atm loads at most once between invalidations", "statement": "In any history the number of database loads that succeed is at most one plus the number of assignments to ihaze/altitude/ground_range, and a read directly after a successful read performs no load.", "quantifier": "all finite histories", "why_tests_cant": "counts over unbounded histories", "anchors": ["src/pybsm/simulation/scenario.py:Scenario.atm"]}
{"id": "C18", "title": "A failed atmosphere load leaves the scenario usable", "statement": "If reading atm raises, the scenario is unchanged; fixing the offending parameter and reading again returns the right atmosphere.", "quantifier": "all histories containing failing loads", "why_tests_cant": "failure points anywhere in a history", "anchors": ["src/pybsm/simulation/scenario.py:Scenario.atm"]}
{"id": "C19", "title": "Cached atmosphere is aliased to the caller", "statement": "The array returned by atm is the cache itself: the claim 'reading atm twice with unchanged parameters returns the stored database atmosphere' is false if the caller modified the first result in place.", "quantifier": "all caller-side modifications", "why_tests_cant": "aliasing is visible only after specific mutation histories", "anchors": ["src/pybsm/simulation/scenario.py:Scenario.atm"]}
{"id": "C20", "title": "Sensor defaults", "statement": "Omitting p_y, w_x, w_y yields p_y = p_x, w_x = p_x (100% fill). The documented rule for the omitted w_y ('same fill factor as along x') is false: the constructor sets w_y/p_y = p_x/w_x, the reciprocal fill factor; it agrees only when w_x = p_x. Omitted w_y with w_x = 0 raises ZeroDivisionError.", "quantifier": "all pitches and widths", "why_tests_cant": "all combinations of optional arguments and all values", "anchors": ["src/pybsm/simulation/sensor.py:Sensor.__init__"]}
{"id": "C21", "title": "Reference image calibration defaults", "statement": "RefImage without pix_values uses the 0.2 and 99.8 percentiles (which always satisfy p0.2 <= p99.8 and lie within the image range, at the rank the name says and linearly between neighbouring values of the sorted image) with reflectances 0.05 and 0.95; with pix_values but no refl_values raises ValueError; refl_values given without pix_values is silently discarded.", "quantifier": "all images and calibration arrays", "why_tests_cant": "percentile ordering over all images; argument combinations", "anchors": ["src/pybsm/simulation/ref_image.py:RefImage.__init__"]}
{"id": "C22", "title": "Estimated capture parameters reproduce the image sampling", "statement": "estimate_capture_parameters(altitude) returns a sensor and scenario whose ground sample distance p/f*altitude equals the image gsd, whose diffraction spot (lambda/D) is a quarter of the pixel field of view, whose turbulence is off, and raises ZeroDivisionError for gsd = 0. The default altitude 2e6 m is not in the database, so reading the atmosphere of the default scenario raises IndexError. The image is more than 12 times coarser than the sampling guide in the documentation of simulate_image (imggsd <= rng/(4 coff)) asks for with this camera, at every wavelength of its band and whatever the gsd and altitude.", "quantifier": "all gsd values and altitudes", "why_tests_cant": "algebraic consistency over all inputs", "anchors": ["src/pybsm/simulation/ref_image.py:RefImage.estimate_capture_parameters"]}
{"id": "C23", "title": "Blackbody radiance is positive, finite and strictly increasing with temperature", "statement": "For positive wavelength and temperature blackbody_radiance is a positive finite number, strictly increasing in temperature at every wavelength.", "quantifier": "all wavelengths > 0 and temperatures > 0", "why_tests_cant": "monotonicity over a continuum", "anchors": ["src/pybsm/radiance/functional.py:blackbody_radiance"]}
{"id": "C24", "title": "Blackbody radiance obeys Wien's scaling law and the Rayleigh-Jeans bound", "statement": "B(lambda/k, k*T) = k^5 B(lambda, T) for every k>0, B <= 2*c*k_B*T/lambda^4, and T=0 gives exactly 0 (no NaN).", "quantifier": "all wavelengths, temperatures, scale factors", "why_tests_cant": "functional equation over a continuum", "anchors": ["src/pybsm/radiance/functional.py:blackbody_radiance"]}
{"id": "C25", "title": "Radiance to irradiance conversion", "statement": "at_focal_plane_irradiance is linear in L, positive homogeneous, bounded by pi*L, strictly decreasing in |f/D|, depends only on f/D, and raises ZeroDivisionError exactly for D = 0.", "quantifier": "all D, f and radiance arrays", "why_tests_cant": "universally quantified linearity and bounds", "anchors": ["src/pybsm/radiance/functional.py:at_focal_plane_irradiance"]}
{"id": "C26", "title": "Isothermal camera interior radiates a full hemisphere", "statement": "If the cold shield and a unit-emissivity cold stop have the same temperature T, the sum of cold_shield_self_emission and cold_stop_self_emission is exactly pi*B(lambda,T), independent of D and f (Kirchhoff).", "quantifier": "all D, f, T and wavelength arrays", "why_tests_cant": "an identity over all optics", "anchors": ["src/pybsm/radiance/functional.py:cold_shield_self_emission", "src/pybsm/radiance/functional.py:cold_stop_self_emission"]}
{"id": "C27", "title": "Photon detection rate counts photons", "statement": "photon_detection_rate(E,...) times photon energy hc/lambda equals qe * area * E elementwise; it is linear in E and qe; arrays whose lengths cannot be broadcast raise ValueError.", "quantifier": "all arrays", "why_tests_cant": "all array lengths and values", "anchors": ["src/pybsm/radiance/functional.py:photon_detection_rate"]}
{"id": "C28", "title": "Wavelength resampling", "statement": "resample_by_wavelength reproduces the samples at the given wavelengths, is 0 outside their range, never exceeds the range of the values together with 0, keeps non-negativity, and returns one value per new wavelength; mismatched lengths or an empty table raise ValueError.", "quantifier": "all strictly increasing tables and all query points", "why_tests_cant": "bounds over all tables and queries", "anchors": ["src/pybsm/radiance/functional.py:resample_by_wavelength"]}
{"id": "C29", "title": "Total radiance is an affine mix of emission and reflection", "statement": "total_radiance is affine in reflectance; at the database reflectance 0.15 the solar term is exactly the stored ground-reflected term; it is increasing in temperature for reflectance < 1 and independent of temperature for reflectance = 1; the surface-emission column is never used.", "quantifier": "all atmospheres, reflectances, temperatures", "why_tests_cant": "statement over all atmosphere tables", "anchors": ["src/pybsm/radiance/functional.py:total_radiance"]}
{"id": "C30", "title": "GIQE target is brighter than background in emissive mode", "statement": "With is_emissive the target radiance (282 K) is at least the background radiance (280 K) at every wavelength with non-negative transmission, strictly where transmission is positive; is_emissive ignores the solar column; any non-zero flag counts as emissive.", "quantifier": "all atmospheres with positive wavelengths", "why_tests_cant": "all atmosphere tables", "anchors": ["src/pybsm/radiance/functional.py:giqe_radiance"]}
{"id": "C31", "title": "Signal rate", "statement": "signal_rate is affine in target radiance, never below dark current for non-negative inputs, monotone in radiance, optical transmission, qe and other irradiance, and the returned rate is dark current plus the trapezoidal integral of the returned spectral rate.", "quantifier": "all arrays of equal length with increasing wavelengths", "why_tests_cant": "monotonicity over arrays of any length", "anchors": ["src/pybsm/radiance/functional.py:signal_rate"]}
{"id": "C32", "title": "check_well_fill limits the charge to the well", "statement": "check_well_fill(n, m) returns a factor s in (0,1] with s*n <= m for every m > 0 (s = 1 when n <= m, s*n = m otherwise).", "quantifier": "all counts and limits", "why_tests_cant": "all real inputs", "anchors": ["src/pybsm/radiance/functional.py:check_well_fill"]}
{"id": "C33", "title": "SNR calculation never overfills the well", "statement": "For every sensor and scene, the well_fraction reported by photon_detector_SNR is at most max_well_fill, and the reported integration time never exceeds the requested one.", "quantifier": "all sensors with positive well and all radiance pairs", "why_tests_cant": "all sensors/scenes", "anchors": ["src/pybsm/radiance/functional.py:photon_detector_SNR", "src/pybsm/radiance/functional.py:check_well_fill"]}
{"id": "C34", "title": "Swapping target and background flips the sign of SNR", "statement": "photon_detector_SNR(sensor, w, a, b).snr = -photon_detector_SNR(sensor, w, b, a).snr while total noise, well fraction and integration time are unchanged; equal radiances give SNR 0.", "quantifier": "all sensors and radiance pairs", "why_tests_cant": "symmetry over all inputs", "anchors": ["src/pybsm/radiance/functional.py:photon_detector_SNR"]}
{"id": "C35", "title": "Noise budget", "statement": "total_noise^2 is the sum of signal, quantization, read and other noise variances; total noise is at least each component; dark-current noise plus self-emission noise plus scene noise variances do not exceed the signal variance.", "quantifier": "all sensors and scenes with non-negative parameters", "why_tests_cant": "all inputs", "anchors": ["src/pybsm/radiance/functional.py:photon_detector_SNR"]}
{"id": "C36", "title": "Longer integration never hurts an unsaturated detector", "statement": "While the well limit is not reached, |SNR| is non-decreasing in integration time and in the number of TDI stages.", "quantifier": "all sensors and scenes", "why_tests_cant": "monotonicity over all inputs", "anchors": ["src/pybsm/radiance/functional.py:photon_detector_SNR"]}
{"id": "C37", "title": "Photoelectron curve stays within the well", "statement": "reflectance_to_photoelectrons returns 100 reflectances from 0 to 1 in equal steps and photoelectron counts each at most max_n (and non-negative for non-negative inputs); when the scene would overexpose, the largest count is exactly max_n and the shape of the curve is unchanged.", "quantifier": "all sensors with max_n > 0 and all atmospheres with an in-band sample", "why_tests_cant": "all sensors/atmospheres", "anchors": ["src/pybsm/radiance/functional.py:reflectance_to_photoelectrons"]}
{"id": "C38", "title": "Photoelectron curve is affine in reflectance", "statement": "The 100 photoelectron counts lie on a straight line in reflectance, so they increase iff the solar term exceeds the 300 K emission term, and interpolating them is exact.", "quantifier": "all sensors and atmospheres", "why_tests_cant": "all 100 points for all inputs", "anchors": ["src/pybsm/radiance/functional.py:reflectance_to_photoelectrons", "src/pybsm/radiance/functional.py:total_radiance"]}
{"id": "C39", "title": "Spectral weights are normalised", "statement": "The second row of spectral_weights is at most 1 everywhere and equals 1 somewhere when any signal is detected.", "quantifier": "all sensors and atmospheres with a positive detected signal", "why_tests_cant": "all inputs", "anchors": ["src/pybsm/radiance/functional.py:reflectance_to_photoelectrons"]}
{"id": "C40", "title": "target_temp argument has no effect", "statement": "reflectance_to_photoelectrons documents a target_temp argument, but the result is the same for every value of it (300 K is hard-coded): the claim that the photoelectron count depends on the target temperature as documented is false.", "quantifier": "all target temperatures", "why_tests_cant": "an argument being ignored is a statement about all pairs of values", "anchors": ["src/pybsm/radiance/functional.py:reflectance_to_photoelectrons"]}
{"id": "C41", "title": "Circular aperture OTF is a proper MTF and never NaN", "statement": "For an unobscured aperture of positive diameter circular_aperture_OTF is a finite number in [0,1] at every frequency, 1 at zero frequency, 0 at and beyond the cutoff D/lambda, even in u and v, rotationally symmetric and non-increasing in radius.", "quantifier": "all frequencies, diameters and wavelengths", "why_tests_cant": "arccos/sqrt are undefined outside the cutoff; the NaN replacement must be right for every frequency", "anchors": ["src/pybsm/otf/functional.py:circular_aperture_OTF"]}
{"id": "C42", "title": "Unobscured aperture OTF is the autocorrelation of the pupil", "statement": "Inside the cutoff the OTF equals the normalised overlap area of two unit discs whose centres are 2*rho*lambda/D apart, computed as an integral.", "quantifier": "all frequencies", "why_tests_cant": "identity with an integral", "anchors": ["src/pybsm/otf/functional.py:circular_aperture_OTF"]}
{"id": "C43", "title": "Obscured aperture OTF", "statement": "For 0 < eta < 1 the OTF is the normalised overlap area of two annuli: 1 at zero frequency, in [0,1] everywhere, 0 at and beyond the cutoff, and never NaN, including at the two region boundaries.", "quantifier": "all frequencies and obscurations", "why_tests_cant": "three formula regions glued by NaN replacement and strict/non-strict comparisons", "anchors": ["src/pybsm/otf/functional.py:circular_aperture_OTF"]}
{"id": "C44", "title": "Zero defocus reduces to the ideal aperture", "statement": "circular_aperture_OTF_with_defocus(u,v,lambda,D,f,0) equals circular_aperture_OTF(u,v,lambda,D,0) at every frequency.", "quantifier": "all frequencies, wavelengths, diameters, focal lengths", "why_tests_cant": "identity of two different formulas over all frequencies", "anchors": ["src/pybsm/otf/functional.py:circular_aperture_OTF_with_defocus", "src/pybsm/otf/functional.py:circular_aperture_OTF"]}
{"id": "C45", "title": "Defocused aperture OTF is finite, 1 at zero frequency and 0 beyond cutoff", "statement": "For every defocus, circular_aperture_OTF_with_defocus returns a finite number everywhere, exactly 1 at zero frequency, exactly 0 beyond the cutoff, and tends to the ideal aperture OTF as defocus tends to 0.", "quantifier": "all frequencies and defocus values", "why_tests_cant": "limit statement", "anchors": ["src/pybsm/otf/functional.py:circular_aperture_OTF_with_defocus"]}
{"id": "C46", "title": "Charge-transfer OTF", "statement": "cte_OTF is in (0,1] for efficiency <= 1 and non-negative transfer counts, 1 at zero frequency, 1 everywhere for perfect efficiency, periodic in frequency with period f/pitch, and the OTF of n1+n2 transfers is the product of the OTFs.", "quantifier": "all parameters and frequencies", "why_tests_cant": "identities over a continuum", "anchors": ["src/pybsm/otf/functional.py:cte_OTF"]}
{"id": "C47", "title": "Jitter OTF is that of a Gaussian with the stated RMS", "statement": "jitter_OTF is in (0,1], 1 at zero frequency, even, decreasing in |u|; two independent jitters combine by root-sum-square (product of OTFs); and minus its second derivative at 0 divided by 4 pi^2 is s_x^2.", "quantifier": "all frequencies and RMS values", "why_tests_cant": "functional equation and derivative", "anchors": ["src/pybsm/otf/functional.py:jitter_OTF"]}
{"id": "C48", "title": "Detector OTF is the Fourier transform of the pixel", "statement": "detector_OTF(u,v) equals the integral of cos(2 pi u x) over the normalised rectangular pixel (times the same for v); |H| <= 1, H=1 at zero, H=0 at multiples of f/w_x.", "quantifier": "all frequencies and pixel sizes", "why_tests_cant": "identity with an integral", "anchors": ["src/pybsm/otf/functional.py:detector_OTF"]}
{"id": "C49", "title": "Detector aggregation", "statement": "detector_OTF_with_aggregation with n=1 is detector_OTF; aggregating n contiguous full-fill pixels equals a single detector n times as wide; |H| <= 1; n = 0 does not return a number.", "quantifier": "all n, frequencies, sizes", "why_tests_cant": "identity for every n (induction)", "anchors": ["src/pybsm/otf/functional.py:detector_OTF_with_aggregation", "src/pybsm/otf/functional.py:detector_OTF"]}
{"id": "C50", "title": "Diffusion OTF", "statement": "diffusion_OTF is 1 at zero frequency, in (0,1] everywhere and non-increasing in radial frequency, for positive absorption, depletion width and diffusion length.", "quantifier": "all parameters and frequencies", "why_tests_cant": "monotonicity", "anchors": ["src/pybsm/otf/functional.py:diffusion_OTF"]}
{"id": "C51", "title": "Drift OTF", "statement": "drift_OTF is the Fourier transform of a uniform smear of the given extents; |H| <= 1; no drift gives 1 everywhere; it vanishes at 1/a_x.", "quantifier": "all frequencies and drifts", "why_tests_cant": "identity with an integral", "anchors": ["src/pybsm/otf/functional.py:drift_OTF"]}
{"id": "C52", "title": "Filter OTF is bounded and periodic", "statement": "For any kernel, filter_OTF is between 0 and the largest magnitude of the kernel's discrete transform, at most sum|k|, and periodic in both frequencies with period 1/ifov; ifov = 0 raises ZeroDivisionError. Everywhere its value is the linear interpolation, over the triangle picked, in a 100 x 100 table of the kernel's response whose first and last columns (and rows) are taken to be half a cycle per pixel either way, at the frequency folded into that range.", "quantifier": "all kernels, frequencies, whichever triangulation the interpolator picks", "why_tests_cant": "nondeterministic triangulation and all kernels", "anchors": ["src/pybsm/otf/functional.py:filter_OTF"]}
{"id": "C53", "title": "Filter OTF at zero frequency", "statement": "A kernel that sums to one should have OTF 1 at zero frequency. FALSE: coordinates run from -Nyquist to +Nyquist over 100 samples, so the DC sample sits at Nyquist/99; a witness kernel gives a value different from 1.", "quantifier": "all kernels summing to one", "why_tests_cant": "witness requires evaluating the transform off-grid", "anchors": ["src/pybsm/otf/functional.py:filter_OTF"]}
{"id": "C54", "title": "Gaussian and geometric-defocus OTFs", "statement": "gaussian_OTF and defocus_OTF are in (0,1], 1 at zero frequency, even and decreasing; gaussian_OTF at the quoted cutoff 1/blur_size is exactly exp(-pi) (about 0.043, as documented); blur_size 0 raises ZeroDivisionError.", "quantifier": "all frequencies and blur sizes", "why_tests_cant": "numeric enclosure and monotonicity", "anchors": ["src/pybsm/otf/functional.py:gaussian_OTF", "src/pybsm/otf/functional.py:defocus_OTF"]}
{"id": "C55", "title": "Turbulence OTF", "statement": "turbulence_OTF is in (0,1] inside the optical cutoff for 0<=alpha<=1, 1 at zero frequency; the short-exposure OTF is at least the long-exposure OTF; the long-exposure OTF is in (0,1] at all frequencies; beyond the cutoff the short-exposure OTF can exceed 1.", "quantifier": "all frequencies, wavelengths, r0, D", "why_tests_cant": "monotonicity and a counterexample region", "anchors": ["src/pybsm/otf/functional.py:turbulence_OTF"]}
{"id": "C56", "title": "Wind-speed turbulence interpolates between short and long exposure", "statement": "wind_speed_turbulence_OTF lies between the long- and short-exposure OTFs, is the short-exposure OTF when vel*t_d = 0, and is non-increasing in vel*t_d.", "quantifier": "all parameters", "why_tests_cant": "all parameters", "anchors": ["src/pybsm/otf/functional.py:wind_speed_turbulence_OTF", "src/pybsm/otf/functional.py:turbulence_OTF"]}
{"id": "C57", "title": "Time-delay-integration OTF", "statement": "tdi_OTF has |H| <= 1, equals sinc(w u/f) when the velocity mismatch beta is 1, and is 1 at zero frequency, for a positive whole number of TDI steps; with a non-integer number of steps the zero-frequency value exceeds 1.", "quantifier": "all frequencies and step counts", "why_tests_cant": "induction over the number of stages", "anchors": ["src/pybsm/otf/functional.py:tdi_OTF"]}
{"id": "C58", "title": "Wavefront OTFs", "statement": "wavefront_OTF is in [exp(-pv),1], 1 at zero frequency and for pv=0; wavefront_OTF_2 is 1 at zero frequency and at the cutoff, in [1-(w/0.18)^2, 1] within the cutoff, and exceeds 1 beyond it.", "quantifier": "all frequencies", "why_tests_cant": "bounds over a continuum", "anchors": ["src/pybsm/otf/functional.py:wavefront_OTF", "src/pybsm/otf/functional.py:wavefront_OTF_2"]}
{"id": "C59", "title": "Spectral weighting is a weighted average", "statement": "For distinct wavelengths and equally many non-negative weights with positive sum, weighted_by_wavelength returns sum(w_i f(l_i))/sum(w_i), hence stays within the range of f, is unchanged by rescaling the weights, and is 1 where every f(l_i) is 1.", "quantifier": "all lists of wavelengths and weights, all functions", "why_tests_cant": "lists of any length and arbitrary functions", "anchors": ["src/pybsm/otf/functional.py:weighted_by_wavelength"]}
{"id": "C60", "title": "Duplicate wavelengths break the average", "statement": "The weighted average property fails (or raises) when a wavelength occurs twice, and when more weights than wavelengths are supplied.", "quantifier": "lists with duplicates", "why_tests_cant": "depends on list structure", "anchors": ["src/pybsm/otf/functional.py:weighted_by_wavelength"]}
{"id": "C61", "title": "Coherence diameter scaling and monotonicity", "statement": "coherence_diameter scales as lambda^(6/5), decreases when cn2 increases anywhere along the path, scales as cn2^(-3/5), is positive for positive integral and infinite when there is no turbulence.", "quantifier": "all paths, profiles and wavelengths", "why_tests_cant": "integral over arbitrary profiles", "anchors": ["src/pybsm/otf/functional.py:coherence_diameter"]}
{"id": "C62", "title": "Hufnagel-Valley profile", "statement": "The profile is positive for non-negative parameters, equals 2.7e-16 + cn2_at_1m at h=0, is increasing in cn2_at_1m and in wind speed.", "quantifier": "all heights and parameters", "why_tests_cant": "all inputs", "anchors": ["src/pybsm/otf/functional.py:hufnagel_valley_turbulence_profile"]}
{"id": "C63", "title": "Defocus radii and dark current conversions", "statement": "object_domain_defocus_radii is 0 exactly in focus and changes sign when object and focus ranges are swapped; image_domain_defocus_radii is linear in dz; dark_current_from_density times electron charge over area returns the density; zero ranges/focal lengths raise ZeroDivisionError.", "quantifier": "all inputs", "why_tests_cant": "algebraic identities over all inputs", "anchors": ["src/pybsm/otf/functional.py:object_domain_defocus_radii", "src/pybsm/otf/functional.py:image_domain_defocus_radii", "src/pybsm/otf/functional.py:dark_current_from_density"]}
{"id": "C64", "title": "System OTF is the product of its components and is 1 at zero frequency", "statement": "common_OTFs returns system_OTF equal to the pointwise product of the seven component OTFs; at zero frequency it is exactly 1 when no filter kernel is used; within the cutoff its magnitude never exceeds any component, and for a band of at most three octaves it never exceeds one at any frequency. Three octaves is the exact limit: with two wavelengths further apart and any turbulent air no bound holds, not even for cameras built with all defaults.", "quantifier": "all sensors, scenarios, frequencies", "why_tests_cant": "all configurations", "anchors": ["src/pybsm/otf/functional.py:common_OTFs"]}
{"id": "C65", "title": "Turbulence can be switched off", "statement": "If cn2_at_1m <= 0 the turbulence OTF is 1 everywhere and the result does not depend on slant range, altitude, wind speed or aircraft speed.", "quantifier": "all sensors and scenarios", "why_tests_cant": "independence from all other inputs", "anchors": ["src/pybsm/otf/functional.py:common_OTFs"]}
{"id": "C66", "title": "OTF slice", "statement": "For an odd-sized square OTF, slice_otf at angle 0 returns the samples from the centre along +u and at pi/2 those along +v; the first sample is the zero-frequency value.", "quantifier": "all odd square arrays", "why_tests_cant": "all sizes and contents", "anchors": ["src/pybsm/otf/functional.py:slice_otf"]}
{"id": "C67", "title": "OTF slice in the left half plane", "statement": "slice_otf 'rotates counterclockwise' for every angle. FALSE for angles with negative cosine: the interpolator sorts its query coordinates, so the returned samples are in reversed order for one axis.", "quantifier": "all angles", "why_tests_cant": "interp2d's sorting is invisible for angles in the first quadrant", "anchors": ["src/pybsm/otf/functional.py:slice_otf"]}
{"id": "C68", "title": "Point spread function sums to one", "statement": "Whenever otf_to_psf returns a finite kernel its entries sum to exactly 1, so blurring preserves mean brightness.", "quantifier": "all OTF arrays and sample spacings", "why_tests_cant": "all arrays", "anchors": ["src/pybsm/otf/functional.py:otf_to_psf"]}
{"id": "C69", "title": "otf_to_psf support search", "statement": "The returned kernel is the smallest of the tried central crops (10, 15, 20, ...) holding more than 95% of the energy, or the last tried one; for OTF arrays whose smaller side is at most 10 no crop is tried and UnboundLocalError is raised. A direct call with Python numbers answers as the call of apply_otf_to_image does, except that df = 0 or dx_out = 0 raises ZeroDivisionError.", "quantifier": "all array sizes", "why_tests_cant": "loop over sizes; failure for all small arrays", "anchors": ["src/pybsm/otf/functional.py:otf_to_psf"]}
{"id": "C70", "title": "otf_to_psf centring for odd array sizes", "statement": "Using fftshift (instead of ifftshift) before the inverse transform: for even sizes the zero-frequency sample moves to index 0; for odd sizes (as in simulate_image, 1501) it moves to the last index, so the claim 'the spectrum is un-shifted before the inverse transform' is false for every odd size.", "quantifier": "all sizes", "why_tests_cant": "parity-dependent, arrays of any size", "anchors": ["src/pybsm/otf/functional.py:otf_to_psf"]}
{"id": "C71", "title": "Central crop", "statement": "The crop used by otf_to_psf returns k or k+1 samples per axis (k when k and d have the same parity), centred, whenever the array is at least that large; for smaller arrays negative slice starts wrap around and the crop is wrong.", "quantifier": "all sizes d and k", "why_tests_cant": "integer arithmetic over all sizes", "anchors": ["src/pybsm/otf/functional.py:otf_to_psf"]}
{"id": "C72", "title": "Resampled image size", "statement": "resample_2D returns an image whose sides are the input sides times dx_in/dx_out rounded half-to-even; dx_out = 0 raises ZeroDivisionError; sizes rounding to 0 raise cv2.error; equal spacings keep the size and the image.", "quantifier": "all sizes and spacings", "why_tests_cant": "all sizes", "anchors": ["src/pybsm/otf/functional.py:resample_2D"]}
{"id": "C73", "title": "Blurring preserves uniform scenes and the value range", "statement": "Filtering with a normalised PSF (reflect-101 borders) leaves a constant image unchanged, is linear, and for non-negative PSFs keeps every pixel within the range of the input; bilinear resampling has the same three properties.", "quantifier": "all images, kernels, sizes", "why_tests_cant": "all images and kernels", "anchors": ["src/pybsm/otf/functional.py:apply_otf_to_image", "src/pybsm/otf/functional.py:resample_2D"]}
{"id": "C74", "title": "apply_otf_to_image on a uniform scene", "statement": "A uniform reference image of value c is mapped to a uniform image of value c, for every OTF for which a PSF exists; zero range or ifov raises ZeroDivisionError.", "quantifier": "all OTFs, sizes and geometries", "why_tests_cant": "composition over all inputs", "anchors": ["src/pybsm/otf/functional.py:apply_otf_to_image"]}
{"id": "C75", "title": "Edge response is antisymmetric about the edge", "statement": "edge_response(x)+edge_response(-x) = 1 for every MTF, and edge_response(0)=1/2; relative_edge_response = 2*edge_response(1/2) - 1; it is linear in the MTF.", "quantifier": "all MTF slices, spacings and positions", "why_tests_cant": "identity over all arrays", "anchors": ["src/pybsm/metrics/functional.py:edge_response", "src/pybsm/metrics/functional.py:relative_edge_response"]}
{"id": "C76", "title": "Edge height overshoot", "statement": "edge_height_overshoot is one of the nine sampled edge responses at 1.0..3.0 pixels, is the one at 1.25 when the samples strictly increase and otherwise the maximum.", "quantifier": "all MTF slices", "why_tests_cant": "all arrays", "anchors": ["src/pybsm/metrics/functional.py:edge_height_overshoot"]}
{"id": "C77", "title": "Ground resolved distance is detector limited from below", "statement": "ground_resolved_distance is at least 2*ifov*slant_range, equals it when the MTF limit is finer, and is non-increasing in snr for a decreasing MTF.", "quantifier": "all MTF slices, snr, ifov, ranges", "why_tests_cant": "all arrays", "anchors": ["src/pybsm/metrics/functional.py:ground_resolved_distance"]}
{"id": "C78", "title": "GIQE 3 monotonicity", "statement": "giqe3 strictly decreases with GSD (by 3.32*log10(2) per doubling), decreases with overshoot, increases with RER and SNR, decreases with noise gain.", "quantifier": "all positive arguments", "why_tests_cant": "monotonicity", "anchors": ["src/pybsm/metrics/functional.py:giqe3"]}
{"id": "C79", "title": "GIQE 4 monotonicity and its jump", "statement": "giqe4 decreases with GSD and overshoot and increases with SNR. The claim that it is non-decreasing in RER is false: crossing RER=0.9 the result drops for every ground-plane GSD above about 2.3 inches. The claim that it is the published equation (Leachtenauer et al. 1997, cited in the docstring) is false: the coefficient of G/SNR is 0.334 instead of 0.344, so ratings are too high by exactly G/SNR/100.", "quantifier": "all positive arguments", "why_tests_cant": "a jump at one value", "anchors": ["src/pybsm/metrics/functional.py:giqe4"]}
{"id": "C80", "title": "GIQE 5 symmetry, mean and test case", "statement": "giqe5 is symmetric in the two RERs, its combined RER lies between them (equals them when equal), NIIRS strictly decreases with GSD and increases with elevation angle on (0, pi/2], the rating is the published formula in the cube root of max*min^2, and the documented test case gives NIIRS 5 within 0.05. If one RER is negative (contrast reversal) its sign is lost, so that a reversed edge can be rated above the upright one; if both are, the rating is NaN.", "quantifier": "all positive arguments", "why_tests_cant": "symmetry and means over a continuum, numeric enclosure", "anchors": ["src/pybsm/metrics/functional.py:giqe5"]}
{"id": "C81", "title": "niirs overwrites the scenario with the GIQE defaults", "statement": "After niirs the scenario carries the documented GIQE values. FALSE in emissive mode: the target temperature ends at 280 instead of 282 and the background temperature is not set.", "quantifier": "all scenarios and sensors", "why_tests_cant": "side effects on caller-owned objects", "anchors": ["src/pybsm/metrics/functional.py:niirs", "src/pybsm/metrics/functional.py:niirs5"]}
{"id": "C82", "title": "niirs5 permanently removes the sharpening kernel", "statement": "The result of niirs depends only on its arguments as configured by the user. FALSE: any earlier niirs5 call on the same sensor replaces its filter kernel with the identity, so niirs afterwards differs from niirs before.", "quantifier": "all call histories", "why_tests_cant": "order-dependence of calls", "anchors": ["src/pybsm/metrics/functional.py:niirs5", "src/pybsm/metrics/functional.py:niirs"]}
{"id": "C83", "title": "Repeating niirs or niirs5 is idempotent", "statement": "Calling niirs (niirs5) twice with the same objects returns the same metrics both times, and between them the sensor and scenario do not change any more.", "quantifier": "all sensors and scenarios", "why_tests_cant": "history statement", "anchors": ["src/pybsm/metrics/functional.py:niirs", "src/pybsm/metrics/functional.py:niirs5"]}
{"id": "C84", "title": "Scene and path noise split", "statement": "The scene noise reported by niirs is a real number (its squared path noise never exceeds the squared scene-and-path noise) for atmospheres with non-negative columns.", "quantifier": "all sensors and atmospheres", "why_tests_cant": "a square root of a difference that must never be negative", "anchors": ["src/pybsm/metrics/functional.py:niirs"]}
{"id": "C85", "title": "Frame stacking", "statement": "With n stacked frames niirs and niirs5 use sqrt(n) times the single-frame SNR and nothing else changes, so stacking more frames raises the GIQE 3, 4 and 5 ratings of a target brighter than its background (GIQE 5: for an edge response up to 1.9).", "quantifier": "all n", "why_tests_cant": "all n", "anchors": ["src/pybsm/metrics/functional.py:niirs", "src/pybsm/metrics/functional.py:giqe3"]}
{"id": "C86", "title": "Frequency grid of niirs", "statement": "The niirs frequency grid is 101x101, symmetric about zero with the zero frequency exactly at the centre, reaches the cutoff D/min wavelength, and is uniformly spaced.", "quantifier": "all sensors", "why_tests_cant": "all grid points", "anchors": ["src/pybsm/metrics/functional.py:niirs"]}
{"id": "C87", "title": "Reflectance images are in [0,1]", "statement": "img_to_reflectance returns reflectances in [0,1] for every image and every calibration of at least two points with different pixel values: the clipped value of the broken line through the points, extended beyond the outermost ones. It reproduces the calibration points, is monotone when the calibration is, and does not depend on the order of the points; empty or mismatched calibrations raise ValueError. Two natural readings are false: repeated pixel values among otherwise different ones can give NaN, and a single calibration point gives NaN instead of the documented ValueError.", "quantifier": "all images and calibrations", "why_tests_cant": "extrapolation outside the calibrated range", "anchors": ["src/pybsm/simulation/functional.py:img_to_reflectance"]}
{"id": "C88", "title": "What simulate_image computes", "statement": "For a sound camera, geometry, atmosphere and calibration the reflectance-to-photoelectron interpolation inside simulate_image never raises; the reference image is calibrated by the tables given to it, or by default so that the 0.2 percentile of its pixels has reflectance 0.05 and the 99.8 percentile 0.95; the true image is, pixel by pixel, the charge the camera collects from a 300 K target of the calibrated reflectance in an exposure shortened so that the brighter of black and white just fills the well, hence between 0 and max_n; the rest is the blur by the system OTF and the noise. A uniform scene stays uniform at the same level. If the point spread function has no negative values the blurred image stays within [0, max_n] and the simulation succeeds with count + g*normal in every pixel.", "quantifier": "all reference images, sensors, scenarios", "why_tests_cant": "all images", "anchors": ["src/pybsm/simulation/functional.py:simulate_image", "src/pybsm/radiance/functional.py:reflectance_to_photoelectrons"]}
{"id": "C89", "title": "Wiener filter", "statement": "wiener_filter with zero noise is the inverse filter; WF*OTF is real, in [0,1) for positive noise-to-signal; (1+nsr)*WF = 1 where OTF = 1; it minimises the expected squared restoration error at every frequency; OTF=0 with nsr=0 gives NaN.", "quantifier": "all complex OTF values and ratios", "why_tests_cant": "optimality over all filters", "anchors": ["src/pybsm/simulation/functional.py:wiener_filter"]}
{"id": "C90", "title": "8-bit contrast stretch", "statement": "stretch_contrast_convert_8bit yields integers in 0..255, is monotone in pixel value, maps pixels at or below the low percentile to 0 and at or above the high percentile to 255, and is invariant under positive affine rescaling of the image, whenever the two percentiles differ.", "quantifier": "all images and percentile pairs", "why_tests_cant": "all images", "anchors": ["src/pybsm/simulation/functional.py:stretch_contrast_convert_8bit"]}
{"id": "C91", "title": "Simulated Gaussian noise level", "statement": "The additive noise of simulate_image has variance equal to quantization variance plus read-noise variance and is zero only for a noiseless sensor. For draws with the first and second moments of Poisson and standard normal numbers, a noisy pixel has the blurred pixel as mean and shot plus additive noise as variance.", "quantifier": "all sensors", "why_tests_cant": "all inputs", "anchors": ["src/pybsm/simulation/functional.py:simulate_image"]}
{"id": "C92", "title": "instantaneous_FOV and ground sample distance compose", "statement": "ground_sample_distance(instantaneous_FOV(w,f), R) = w*R/f; zero focal length raises ZeroDivisionError; the flat small-angle ifov is at least the exact 2*arctan(w/2/f).", "quantifier": "all inputs", "why_tests_cant": "inequality over a continuum", "anchors": ["src/pybsm/simulation/functional.py:instantaneous_FOV", "src/pybsm/geospatial.py:ground_sample_distance"]}
{"id": "C93", "title": "Flat-earth slant range in simulate_image", "statement": "simulate_image uses sqrt(altitude^2+ground_range^2) while niirs uses the curved-Earth range. The flat range still forms a triangle with the Earth's centre for every ground range up to one Earth diameter, so the turbulence path is never NaN; the two ranges agree at ground range 0 and the claim that they agree in general is false.", "quantifier": "all altitudes and ground ranges", "why_tests_cant": "comparison over a continuum", "anchors": ["src/pybsm/simulation/functional.py:simulate_image", "src/pybsm/geospatial.py:altitude_along_slant_path"]}
{"id": "C94", "title": "Kernel resampling can abort the simulation", "statement": "apply_otf_to_image also resamples the kernel 'for health checks': whenever the kernel is narrower than half an output pixel the whole call raises cv2.error, although the picture itself could have been resampled.", "quantifier": "all scenes, OTFs and geometries with a small kernel on the output grid", "why_tests_cant": "needs coarse output pixels; the failing step is unrelated to the returned picture", "anchors": ["src/pybsm/otf/functional.py:apply_otf_to_image", "src/pybsm/otf/functional.py:resample_2D"]}
{"id": "C95", "title": "niirs and niirs5 succeed on sound inputs", "statement": "For a camera with positive dimensions and sorted response tables, an atmosphere with non-negative columns in wavelength order that the camera can see somewhere, and a sensor above the ground, niirs returns finite slant range, SNR, GSD and noise gain whenever the filter kernel sums to one and raises ValueError whenever it does not; niirs5 always returns. SNR and spectral weights are those of the standard target and background at the wavelengths the camera sees; RER and overshoot are those of the system transfer function along its two axes, for that spectrum, integration time and slant range. With six pixels per resolution element, a band of at most three octaves and no sharpening the RER lies in (0, 1], the overshoot is at least one half and the GIQE 3 and 4 ratings are numbers unless the SNR is zero.", "quantifier": "all such sensors, scenarios, atmospheres and kernels", "why_tests_cant": "totality of a long pipeline with divisions, roots and array indexing", "anchors": ["src/pybsm/metrics/functional.py:niirs", "src/pybsm/metrics/functional.py:niirs5"]}
{"id": "C96", "title": "How simulate_image fails", "statement": "A camera without any signal from a white target gives ValueError (minimum of an empty array). A uniform reference image with the default calibration never yields an image: both default calibration values coincide and every reflectance is NaN. One negative pixel in the blurred image gives ValueError in the Poisson draw.", "quantifier": "all cameras, scenes and images of the three kinds", "why_tests_cant": "classes of inputs on which a documented function cannot succeed", "anchors": ["src/pybsm/simulation/functional.py:simulate_image", "src/pybsm/simulation/ref_image.py:RefImage"]}
{"id": "C97", "title": "The point spread function of simulate_image is modulated", "statement": "The PSF should be the inverse transform of the system OTF centred on the frame. simulate_image always samples the OTF on 1501 x 1501 points, and for this odd size what otf_to_psf computes is that PSF multiplied by cos(2 pi ((i-750)/1501 + (j-750)/1501)), for every sound camera without a filter kernel.", "quantifier": "all cameras, scenes and pixels", "why_tests_cant": "the deviation is small at the centre of the frame and has no reference value", "anchors": ["src/pybsm/simulation/functional.py:simulate_image", "src/pybsm/otf/functional.py:otf_to_psf"]}
{"id": "C98", "title": "Scenes too coarse to be blurred", "statement": "When a pixel of the reference image subtends more than half the frame on which the PSF is computed, simulate_image does not blur at all: it succeeds, and the blurred image is the true image resampled to the sensor's pixels.", "quantifier": "all such cameras, scenes and images", "why_tests_cant": "whole-pipeline equality over all inputs of the class", "anchors": ["src/pybsm/simulation/functional.py:simulate_image"]}
{"id": "C99", "title": "The transfer function of simulate_image", "statement": "For every sound camera without a filter kernel the system OTF array is 1501 x 1501 with positive spacing, real, symmetric under point reflection, and exactly 1 at its centre; it is non-negative when the detector's first zero lies beyond the optical cutoff.", "quantifier": "all cameras, scenes and grid points", "why_tests_cant": "all grid points", "anchors": ["src/pybsm/simulation/functional.py:simulate_image", "src/pybsm/otf/functional.py:common_OTFs"]}
{"id": "C100", "title": "simulate_image and the atmosphere cache", "statement": "simulate_image uses the atmosphere of the scenario's current parameters, leaves altitude, ground range and the plain attributes unchanged, loads the atmosphere at most once, and a second call with the same random numbers reuses the cache and gives the same result; a loader's exception is passed on.", "quantifier": "all loaders, scenarios and histories", "why_tests_cant": "all states", "anchors": ["src/pybsm/simulation/functional.py:simulate_image", "src/pybsm/simulation/scenario.py:Scenario.atm"]}
{"id": "C101", "title": "Scenario attributes read back what was assigned", "statement": "After any sequence of assignments, atmosphere reads and in-place edits, every plain attribute holds the value of its last assignment (its constructor value if none), and ihaze, altitude and ground_range hold the values last set.", "quantifier": "all loaders, constructor arguments and histories", "why_tests_cant": "all histories of any length", "anchors": ["src/pybsm/simulation/scenario.py:Scenario"]}
{"id": "C102", "title": "Band integrated focal-plane irradiance", "statement": "focal_plane_integrated_irradiance is the cone factor pi/(1+4(f/D)^2) times (t_opt L + e_opt B(lambda0,T) dlambda + L_s) elementwise; for a dark scene without stray light only the emission of the optics times the bandwidth remains, as optics_self_emission gives it; a zero aperture raises ZeroDivisionError.", "quantifier": "all optics and radiance arrays of equal length, wavelengths nonzero", "why_tests_cant": "identity over arrays of any length", "anchors": ["src/pybsm/radiance/functional.py:focal_plane_integrated_irradiance"]}
{"id": "C103", "title": "Defocused aperture against diffraction", "statement": "In focus the defocused-aperture OTF is the aperture's diffraction OTF (overlap of two shifted pupils). Out of focus it should be the overlap integral weighted by the defocus phase; it is not: with a quarter wave of defocus at half the cutoff frequency the function returns 0.184 for every lens, diffraction more than 0.287.", "quantifier": "all wavelengths, apertures, focal lengths, frequencies and defocus amounts", "why_tests_cant": "the tests compare the function with its own earlier output; the reference value is an integral over the pupil", "anchors": ["src/pybsm/otf/functional.py:circular_aperture_OTF_with_defocus"]}
{"id": "C104", "title": "Complex transfer functions displace the picture the right way", "statement": "For a kernel symmetric about its centre the blur is the convolution of the (mirror-continued) picture with the kernel. For a complex OTF it should still be; it is not: apply_otf_to_image correlates (cv2.filter2D does not flip the kernel), so a system whose OTF is exp(-2 pi i (u s + v t)) moves the picture by (-s, -t) instead of (s, t).", "quantifier": "all pictures, kernels, even OTF sizes from 12 and displacements of up to four pixels", "why_tests_cant": "the tests use real, symmetric OTFs, for which correlation and convolution agree", "anchors": ["src/pybsm/otf/functional.py:apply_otf_to_image", "src/pybsm/otf/functional.py:otf_to_psf"]}
{"id": "C105", "title": "The noise chart is a budget", "statement": "For every result of niirs or niirs5 the noise chart can be drawn. Its first bar, squared, is the sum of the squares of the other six and of the camera's other_noise entries (so the visible bars account for it exactly when there is no other noise); the dark current bar is the Poisson noise of the dark electrons collected in the reported time; the numbers in the title are the whole electrons of the target, of the contrast and the whole percent of the well, the last never above the largest allowed fill.", "quantifier": "all physical cameras, atmospheres, scenarios and axis limits", "why_tests_cant": "plots are not compared with anything; the identity holds for all inputs", "anchors": ["src/pybsm/metrics/functional.py:plot_noise_terms", "src/pybsm/metrics/functional.py:niirs", "src/pybsm/metrics/functional.py:niirs5"]}
{"id": "C106", "title": "The MTF chart and its exception", "statement": "plot_common_MTFs never returns: plt.annotate is called with xy_text and arrow_props, which matplotlib does not know. What has been drawn by then, for a result of niirs or niirs5 and a slice along either axis, is right: the abscissae are the sampled frequencies in cycles per millimetre of the image plane, every curve shows the modulus of its component, the system's curve is the product of the seven others, the axes end at the largest frequency and at the largest value of the image processing curve, and the arrow would point to half a cycle per detector pitch.", "quantifier": "all sound cameras, atmospheres and scenarios; both axes", "why_tests_cant": "the chart is only looked at; no test calls the function", "anchors": ["src/pybsm/metrics/functional.py:plot_common_MTFs", "src/pybsm/metrics/functional.py:niirs", "src/pybsm/metrics/functional.py:niirs5"]}
{"id": "C107", "title": "The atmosphere database reaches exactly to the horizon", "statement": "For every altitude and ground range that the documentation lists, an atmosphere is stored exactly when the straight line from the ground point to the sensor clears the spherical Earth; the interpolating loader never returns an atmosphere for a target behind the horizon (though between grid points it may reject a target in sight). The look from space of the README (500 km) is not stored; at 550 km exactly the nadir view is.", "quantifier": "all documented altitude and range pairs, both haze models, all real altitudes and ranges for the interpolating loader, all file contents", "why_tests_cant": "the interpolated requests form a continuum, and the horizon is a geometric condition on whole line segments", "anchors": ["src/pybsm/utils.py:load_database_atmosphere", "src/pybsm/utils.py:load_database_atmosphere_no_interp", "src/pybsm/atms/fileDecoder.csv", "src/pybsm/atms/atmosphere_README.txt"]}
{"id": "C108", "title": "More electronic noise never improves a rating", "statement": "Replacing read noise, bit depth and other noise terms of a camera so that their total power grows changes nothing in a run of niirs or niirs5 but the signal to noise ratio, which moves towards zero; with a target brighter than its background no finite rating (GIQE 3, 4, and 5 for an edge response up to 1.9) rises. The standard target is never darker than the standard background for thermal cameras and for cameras that see nothing beyond 4 microns; for other cameras it can be darker, and then no finite rating falls as the noise grows.", "quantifier": "all physical cameras, all replacements of the noise terms, all atmospheres with non-negative columns in wavelength order, all scenarios", "why_tests_cant": "a comparison of two whole runs for all cameras; tests look at single runs", "anchors": ["src/pybsm/metrics/functional.py:niirs", "src/pybsm/metrics/functional.py:niirs5", "src/pybsm/metrics/functional.py:giqe3", "src/pybsm/metrics/functional.py:giqe4", "src/pybsm/metrics/functional.py:giqe5", "src/pybsm/radiance/functional.py:photon_detector_SNR", "src/pybsm/radiance/functional.py:giqe_radiance"]}
{"id": "C109", "title": "More blur or rougher air never improves the GIQE 5 rating of a well sampled camera", "statement": "For a camera whose pixels are no larger than a resolution element and whose band spans at most three octaves, more line-of-sight jitter, more wavefront error, more turbulence at the ground and more wind aloft leave contrast, sampling distance and elevation unchanged and never raise an edge response of niirs5 or niirs; with a target brighter than its background and edge responses at most one (which holds for two pixels per resolution element) the rating of niirs5 does not rise.", "quantifier": "all good cameras of this kind, all amounts of jitter, wavefront error, turbulence and wind, all atmospheres and scenarios with non-negative aircraft speed", "why_tests_cant": "a comparison of two whole runs, through a 101 x 101 frequency grid, for a continuum of inputs", "anchors": ["src/pybsm/metrics/functional.py:niirs5", "src/pybsm/metrics/functional.py:niirs", "src/pybsm/metrics/functional.py:giqe5", "src/pybsm/metrics/functional.py:giqe5_RER", "src/pybsm/otf/functional.py:common_OTFs", "src/pybsm/otf/functional.py:polychromatic_turbulence_OTF"]}
{"id": "C110", "title": "Looking straight down in double precision", "statement": "With ground_range 0 and an altitude that is a whole number of eighths of a metre (up to 1000 km) the computed slant range equals the altitude and the nadir angle is arccos(1) exactly, in niirs/niirs5 as well as in simulate_image. For every altitude from 2 m to 24500 m the squared slant range is off by at most 0.02 square metres. But that the nadir angle is always a number is false: of the 244981 altitudes 2.0, 2.1, ..., 24500.0 m at least 97992 (for example 609.6 m = 2000 ft) round to a cosine above one, so np.arccos gives nan; whenever the slant range is below the altitude the turbulence factor, the system transfer function and the ratings of both quality equations are nan as well.", "quantifier": "all altitudes (eighths of a metre; decimetres; any binary64 number in the range of the database)", "why_tests_cant": "the wrong altitudes are not whole metres (the only ones tests use) and no exception is raised: the result is nan; interp=True is needed to load the atmosphere at such altitudes", "anchors": ["src/pybsm/geospatial.py:nadir_angle", "src/pybsm/geospatial.py:curved_earth_slant_range", "src/pybsm/geospatial.py:altitude_along_slant_path", "src/pybsm/metrics/functional.py:niirs", "src/pybsm/metrics/functional.py:niirs5", "src/pybsm/simulation/functional.py:simulate_image"]}
{"id": "C111", "title": "Turning the camera by a right angle", "statement": "Exchanging the x and y parameters of the camera (pitches, pixel sizes, jitter, drift, correlation lengths) leaves exposure, noise and contrast unchanged and mirrors the system transfer function about the diagonal. niirs (camera without sharpening mask) reports the same sampling distance, edge response, overshoot and ratings. niirs5 exchanges rer_0 and rer_90 and keeps the combined edge response; its rating moves by exactly 3.32 log10(p_x/p_y), so it is unchanged for square sampling grids only.", "quantifier": "all cameras, scenarios and atmospheres for which niirs and niirs5 work", "why_tests_cant": "compares two runs of the whole computation over all cameras", "anchors": ["src/pybsm/metrics/functional.py:niirs", "src/pybsm/metrics/functional.py:niirs5", "src/pybsm/metrics/functional.py:giqe5_RER", "src/pybsm/metrics/functional.py:giqe_edge_terms", "src/pybsm/otf/functional.py:common_OTFs"]}
{"id": "C112", "title": "Gain, offset and polarity of the reference image", "statement": "Remapping all pixel values x to a x + b with a > 0, together with the calibration table if there is one, changes nothing: img_to_reflectance returns the same reflectances (for every table, also short or repeated ones) and simulate_image the same three images; without a table RefImage finds the remapped calibration itself. With a < 0 (a negative) the same holds for explicit tables of at least two distinct pixel values. The default calibration (percentiles 0.2 and 99.8 for reflectances 0.05 and 0.95) turns a negative into the complement: every reflectance rho becomes 1 - rho, and the photoelectrons of the true and of the blurred image become those of a black target plus those of a white target less the original ones.", "quantifier": "all images, tables, gains and offsets, sensors, scenarios, loaders and random draws", "why_tests_cant": "relates two runs of the whole simulation over all images and remappings", "anchors": ["src/pybsm/simulation/functional.py:img_to_reflectance", "src/pybsm/simulation/functional.py:simulate_image", "src/pybsm/simulation/ref_image.py:RefImage.__init__"]}
{"id": "C113", "title": "Programs that call the analysis functions on several sensors and scenarios", "statement": "In any program of calls of niirs, niirs5 and simulate_image, uses of scenarios and assignments to sensors: striking out all assignments to target and background reflectance and temperature of scenarios changes no answer of any other statement; the answer of a call does not depend on the calls made before it (whether they worked or raised), unless niirs5 was called on its sensor and that sensor has a sharpening filter, in which case the answer can change; statements about other objects, assignments included, never change an answer. After a niirs5 that worked, simulate_image gives the pictures of the sensor without its sharpening filter.", "quantifier": "all programs, all numbers of sensors and scenarios, all loaders and random draws", "why_tests_cant": "tests run a few calls on fresh objects; the statement is about all interleavings of calls and assignments", "anchors": ["src/pybsm/metrics/functional.py:niirs", "src/pybsm/metrics/functional.py:niirs5", "src/pybsm/simulation/functional.py:simulate_image", "src/pybsm/simulation/scenario.py:Scenario"]}
{"id": "C114", "title": "Turning camera and scene together turns the pictures", "statement": "Exchange the x and y parameters of a camera without sharpening mask, and the rows and columns of the reference image and of the random numbers. Then simulate_image succeeds if and only if it did before, and its true, blurred and noisy images are the former ones with rows and columns exchanged, pixel for pixel. RefImage finds the same calibration for the exchanged image, and the table of photoelectrons against reflectance does not change.", "quantifier": "all reference images, cameras, scenarios, atmospheres and random draws for which the simulation is meant to work; the calibration and the table for all inputs", "why_tests_cant": "compares two runs of the whole simulation over all images and cameras, pixel for pixel", "anchors": ["src/pybsm/simulation/functional.py:simulate_image", "src/pybsm/simulation/functional.py:img_to_reflectance", "src/pybsm/simulation/ref_image.py:RefImage.__init__", "src/pybsm/otf/functional.py:apply_otf_to_image", "src/pybsm/otf/functional.py:otf_to_psf", "src/pybsm/otf/functional.py:resample_2D", "src/pybsm/radiance/functional.py:reflectance_to_photoelectrons"]}
{"id": "C115", "title": "Sampling at the native spacing", "statement": "resample_2D with equal spacings keeps the size of the image, rounding errors included, and more generally returns the integer nearest to the exact quotient whenever that is not within 0.01 of a tie. otf_to_psf asked for its own spacing keeps its size or loses one sample. The sensor and scenario of estimate_capture_parameters keep the size of the reference image, rounding errors included, at every altitude and ground sample distance. For any camera whose pixels cover as much ground as those of the reference image, simulate_image resamples nothing: its three images have the size of the reference image, and the blurred one is the true one correlated with a kernel of sum one.", "quantifier": "all sizes up to 2^40 or more and all binary64 spacings in a range of hundreds of powers of two; all images, cameras, scenarios, atmospheres and random draws", "why_tests_cant": "an off-by-one size appears for a few percent of the spacings only, and tests use round numbers", "anchors": ["src/pybsm/otf/functional.py:otf_to_psf", "src/pybsm/otf/functional.py:resample_2D", "src/pybsm/simulation/ref_image.py:RefImage.estimate_capture_parameters", "src/pybsm/simulation/functional.py:simulate_image"]}
{"id": "C116", "title": "Where blurring puts the picture", "statement": "For a real transfer function that looks the same upside down, on an odd number of samples, otf_to_psf gives a point-symmetric kernel of sum one, provided the 95 percent crop keeps the middle. Its sides are odd exactly when the frame of the point spread function is an odd number of picture pixels wide. Therefore apply_otf_to_image at matched pixels leaves a plane of brightness where it is when that number is odd, and displaces it by half a pixel down and to the right when it is even. The same holds for simulate_image with a camera whose pixels match those of the reference image and has no sharpening mask. The camera of RefImage.estimate_capture_parameters always gets a frame of 131 pixels (135 where the 380 nm sample is missing), whatever the picture and altitude, and so leaves planes of brightness unchanged, as the 'no-degradation baseline' of its documentation requires.", "quantifier": "all pictures, transfer functions, spacings, ground sample distances and ranges; for simulate_image all reference images, cameras, scenarios, atmospheres and random draws for which it is meant to work, when the frame is less than 4 or at least 1501 pixels wide or one of the crop windows 10, 15, 20, ... takes it in exactly", "why_tests_cant": "a displacement by half a pixel is invisible in reference pictures, and the larger ones need unusual sizes", "anchors": ["src/pybsm/otf/functional.py:otf_to_psf", "src/pybsm/otf/functional.py:apply_otf_to_image", "src/pybsm/simulation/functional.py:simulate_image"]}
{"id": "C117", "title": "The atmosphere loaders in double precision", "statement": "load_database_atmosphere_no_interp succeeds exactly for the binary64 numbers nearest to the stored altitudes and ranges, although it divides its arguments by 1000 before it compares them, and no two rows of the table can match. load_database_atmosphere agrees with it at the grid points, refuses nan, the infinities and everything outside 2..20000 m and 0..300000 m, and otherwise succeeds exactly when it would in exact arithmetic, with every entry within a relative 2^-48 of the exact interpolation. Rounding takes no entry below zero or above a power of two that bounds the files, so transmissions stay in [0, 1]. Interpolation keeps the wavelength column.", "quantifier": "all binary64 altitudes and ranges (for the lookup: ranges that are zero or at least 2^-1000 in size), haze modes and database directories of whole files with numbers up to 2^799", "why_tests_cant": "equality tests on divided decimals and weights that sum to one only before rounding fail for a sparse set of inputs; tests use a handful of altitudes", "anchors": ["src/pybsm/utils.py:load_database_atmosphere_no_interp", "src/pybsm/utils.py:load_database_atmosphere"]}
{"id": "C118", "title": "Spectral bands in double precision", "statement": "The rows of the atmosphere that niirs, niirs5 and photon_detector_SNR keep for a camera are the wavelengths 0.30, 0.31, ... 14.00 micrometres between the first and the last wavelength of the optics, for band limits that are not within a relative 2^-48 of one of these marks; a camera is treated as emissive exactly when its first wavelength is at least 2.9 micrometres, unless it is within a relative 2^-51 of that. For band limits at a mark: the sample at the mark belongs to the band, and the samples of a band do not depend on the altitude.", "quantifier": "all binary64 band limits, altitudes, ranges, haze modes and database directories", "why_tests_cant": "one of 17 samples disappears for one altitude in ten only, and the effect is a darker picture, not an error", "anchors": ["src/pybsm/metrics/functional.py:niirs", "src/pybsm/metrics/functional.py:niirs5", "src/pybsm/radiance/functional.py:photon_detector_SNR", "src/pybsm/utils.py:load_database_atmosphere"]}
{"id": "C119", "title": "What apply_otf_to_image computes, pixel by pixel", "statement": "The kernel is the inverse Fourier transform of the OTF, resampled by linear interpolation to the angular pixel size of the scene, cut to the smallest of the windows 10, 15, 20, ... that holds more than 95 percent of its sum (or the last window below the OTF's size) and rescaled to sum one; otf_to_psf fails exactly when one of the two sums is zero. Every pixel of the blurred image is the linear interpolation, at the image's own pixel size, of the correlation of the mirrored scene with that kernel, every pixel of the returned point spread function the interpolation of the kernel, and the sizes are those of the scene and the kernel times the ratio of the pixel angles, rounded half to even.", "quantifier": "all images of at least 2 x 2 pixels, OTFs of more than 10 samples a side, ranges, ground sample distances and fields of view", "why_tests_cant": "every pixel of every image, and the window for every point spread function", "anchors": ["src/pybsm/otf/functional.py:apply_otf_to_image", "src/pybsm/otf/functional.py:otf_to_psf", "src/pybsm/otf/functional.py:resample_2D"]}
{"id": "C120", "title": "All three pictures of simulate_image, end to end", "statement": "For a sound camera with any sharpening kernel, a sound geometry, atmosphere and calibration and a reference image of at least 2 x 2 pixels, the three pictures simulate_image returns are given by formulas in the inputs: the true image by the charge collected from the calibrated reflectance; the blurred image by correlating the mirrored true image with the kernel of C119 for the 1501 x 1501 samples of the product of aperture, turbulence, detector, jitter, drift and wavefront transfer functions and the kernel's response (C52), averaged over the wavelengths with the photoelectrons of a white target as weights, the coherence diameter being Fried's integral over the straight path above the round Earth; the noisy image by a count drawn for the blurred pixel plus a normal number times the combined rounding and read noise.", "quantifier": "all cameras, scenarios, atmospheres, reference images and random draws", "why_tests_cant": "the chain of a dozen functions for all inputs; the tests compare one picture with a stored one", "anchors": ["src/pybsm/simulation/functional.py:simulate_image", "src/pybsm/otf/functional.py:common_OTFs", "src/pybsm/otf/functional.py:apply_otf_to_image", "src/pybsm/radiance/functional.py:reflectance_to_photoelectrons"]}
{"id": "C121", "title": "niirs and niirs5 in closed form", "statement": "For a sound camera and atmosphere every number niirs and niirs5 return is a formula in the inputs: slant range and elevation from the triangle of Earth's centre, target and camera; the integration time cut back so that the brighter of target and background just fills the allowed part of the well; the signal-to-noise ratio (difference of charges over root of the brighter charge plus electronic noise power); both edge responses and overshoots from 50 samples along each axis of the product of aperture, turbulence, detector, jitter, drift, wavefront and (niirs) sharpening transfer functions, weighted with the photoelectrons of the target; noise gain; ground sample distances; and the ratings by GIQE 3, GIQE 4 (with 0.334) and GIQE 5. Edge responses whose product is negative give NaN in niirs; in niirs5 only two negative ones do.", "quantifier": "all cameras, kernels, scenarios and atmospheres", "why_tests_cant": "the whole chain for all inputs; the tests compare a few stored numbers", "anchors": ["src/pybsm/metrics/functional.py:niirs", "src/pybsm/metrics/functional.py:niirs5", "src/pybsm/otf/functional.py:common_OTFs", "src/pybsm/radiance/functional.py:photon_detector_SNR"]}
{"id": "C122", "title": "Number of samples of a slice in double precision", "statement": "slice_otf stops short of the edge of the array: an n x n array gives the samples at 0, 1, ... rows from the centre that lie before the last one, n/2 for even and (n-1)/2 for odd n. In double precision no sample position is outside the array and each is within (3i+1)/2^53 of i rows from the centre; an even n gives n/2 samples; an odd n gives one sample more, on the edge, exactly when the spacing u[1] - u[0] computed from rounded coordinates is below 2/(n-1); the 101 x 101 arrays of the ratings give 50.", "quantifier": "all array sizes from 3 to 2^25", "why_tests_cant": "the number of samples depends on the last bit of a difference of rounded numbers; the tests use a few small arrays", "anchors": ["src/pybsm/otf/functional.py:slice_otf"]}
{"id": "C123", "title": "Obscured aperture OTF in double precision", "statement": "circular_aperture_OTF takes the cross term of an obscured aperture from one branch below rho = (1-eta) r0/2 and from another above. In double precision the computed value is within 10^-4 of the exact one (10^-6 without obscuration), except that where the two conditions, rounded separately, disagree the cross term is left out or counted twice: the value is then 2 eta^2/(1-eta^2) too high or too low. This needs 2 rho/r0 within 2^-35 of 1 - eta. It happens in practice: with the repository's example telescope (D = 0.273 m, eta = 0.4, band from 0.50 um) at exactly eight points of the 101 x 101 grid of the NIIRS model, 0.38 too high; at 422 of the 1371 database wavelengths; it breaks the point symmetry of the 1501 x 1501 grid of simulate_image; with eta = 0.6 the MTF becomes negative.", "quantifier": "all frequencies up to twice the cutoff, wavelengths and diameters between 2^-200 and 2^200 m, obscurations from 0.1 to 0.9, all arccos, sin, tan, arctan within 2^-40; the grids point by point", "why_tests_cant": "an exact tie between two rounded expressions has probability zero for sampled inputs, yet round-number configurations hit it; the tests compare a few points away from the tie", "anchors": ["src/pybsm/otf/functional.py:circular_aperture_OTF"]}
{"id": "C124", "title": "Hufnagel-Valley 5/7: five centimetres, seven microradians", "statement": "The docstring of hufnagel_valley_turbulence_profile says that with 21 m/s and 1.7e-14 the profile gives a coherence diameter of 5 cm and an isoplanatic angle of 7 urad on a vertical path into space. At 0.5 um it does: 4.95 to 4.98 cm in the limit of fine sampling for a source 1000 km or more above a telescope on the ground, 4.8 to 5.2 cm on the ten thousand samples the code takes of 100 to 120 km, and 6.85 to 6.95 urad from any path of at least 60 km. In the order the image chain uses, target on the ground and camera above, the same functions give 2.16e-5 to 2.23e-5 times the distance: 8.8 m for a satellite at 400 km. Behind this: coherence_diameter on ever finer even samples tends to Fried's formula with a true integral, and the column of turbulence tends to a closed form for every wind speed and ground strength.", "quantifier": "all path lengths in the stated ranges; all continuous positive profiles, wavelengths and lengths for the convergence; all winds and ground strengths for the column", "why_tests_cant": "the tests evaluate the profile at single heights and the coherence diameter for two or three samples; the claims are about integrals over ten thousand samples or an unbounded path", "anchors": ["src/pybsm/otf/functional.py:hufnagel_valley_turbulence_profile", "src/pybsm/otf/functional.py:coherence_diameter", "src/pybsm/geospatial.py:altitude_along_slant_path"]}
{"id": "C125", "title": "Arguments of the Scenario constructor", "statement": "Scenario(name, ihaze, altitude, ground_range) has the documented attributes (aircraft speed 0, reflectances 0.15 and 0.07, temperatures 295 and 293 K, high-altitude wind 21 m/s, cn2 1.7e-14) and exact table lookup: after any program an attribute the program did not assign still has the documented value, and atm is the table's exact row for the current parameters. In a call with positional and keyword arguments each parameter takes the value the caller wrote for it, the others their defaults; a ninth positional value or a parameter given twice is a TypeError. The fifth positional value is the aircraft speed, so Scenario(name, ihaze, altitude, ground_range, True) never interpolates and flies at 1 m/s.", "quantifier": "all argument lists, keyword sets and programs, all loaders", "why_tests_cant": "tests construct three scenarios; test_atm_index_error passes interp positionally, so its four interpolating cases exercise the exact lookup", "anchors": ["src/pybsm/simulation/scenario.py:Scenario.__init__", "src/pybsm/simulation/scenario.py:Scenario.atm"]}
{"id": "C126", "title": "Peak and area of the blackbody curve", "statement": "At every positive temperature the curve computed by blackbody_radiance rises strictly with the wavelength while lambda T <= 2.89777e-3 m K and falls strictly once lambda T >= 2.89778e-3 m K (Wien's displacement law); its integral over all wavelengths converges to sigma T^4 / pi with sigma between 5.6703e-8 and 5.6704e-8 W/(m^2 K^4) (Stefan-Boltzmann); at 300 K the band of the database, 0.3 to 14 micrometres, carries between 51 and 52 percent of it.", "quantifier": "all positive temperatures, all pairs of positive wavelengths", "why_tests_cant": "an improper integral and monotonicity over a continuum", "anchors": ["src/pybsm/radiance/functional.py:blackbody_radiance", "src/pybsm/utils.py:load_database_atmosphere_no_interp"]}
{"id": "C127", "title": "Photoelectron rate in double precision", "statement": "In double precision blackbody_radiance, total_radiance and signal_rate are within a relative 10^-12 of the exact values: for wavelengths from 0.1 to 100 micrometres with lambda T between 6e-5 and 0.019 m K (0.3 to 14 micrometres at 200 to 1357 K), up to 2000 wavelengths, radiances, transmissions and efficiencies that are 0 or between 10^-12 and 10^12, whatever the order in which np.sum adds, and whatever np.exp and ** do within four units in the last place. For lambda T <= 2e-5 m K (66 K at 0.3 micrometres) the exponential overflows and the computed radiance is exactly 0 instead of a tiny positive number.", "quantifier": "all binary64 inputs of that size, all summation orders, all accurate exp and power functions", "why_tests_cant": "tests compare with tolerances at single points and depend on the library in use", "anchors": ["src/pybsm/radiance/functional.py:blackbody_radiance", "src/pybsm/radiance/functional.py:total_radiance", "src/pybsm/radiance/functional.py:at_focal_plane_irradiance", "src/pybsm/radiance/functional.py:photon_detection_rate", "src/pybsm/radiance/functional.py:signal_rate"]}
{"id": "C128", "title": "Sampling of thermal emission", "statement": "For a black target of temperature T seen through optics of flat transmission with a detector of flat quantum efficiency, plus the emission of the camera itself, the photoelectron rate that signal_rate obtains with the trapezoidal rule from samples at most h apart, all wavelengths at least m and all emitters at least T0 (or at absolute zero), differs from the exact integral over the band by at most ((hc/(k m T0) + 5) h/m)^2/8 of that integral. With the 10 nm spacing of the database and nothing colder than 70 K that is 0.8 percent from 3 micrometres and 0.02 percent from 8 micrometres on. While lambda T <= 1.987e-3 m K for the largest wavelength and every temperature, the sampled rate is never below the exact one.", "quantifier": "all physical sensors, temperatures, ascending wavelength lists of any length, flat responses", "why_tests_cant": "the exact value is an integral over a continuum of wavelengths that no test computes", "anchors": ["src/pybsm/radiance/functional.py:signal_rate", "src/pybsm/radiance/functional.py:blackbody_radiance", "src/pybsm/radiance/functional.py:cold_shield_self_emission", "src/pybsm/radiance/functional.py:optics_self_emission", "src/pybsm/radiance/functional.py:cold_stop_self_emission"]}
{"id": "C129", "title": "Documented exceptions of the transfer functions", "statement": "common_OTFs raises IndexError if uu or vv are empty and ZeroDivisionError if slant_range is 0. It does not: an empty grid gives empty arrays. IndexError comes from the band lists alone (none, or two or more wavelengths with another number of weights), whatever the grid, range, sensor and scenario; ZeroDivisionError comes exactly from a range that is the Python number 0 with turbulence on; otherwise the call succeeds and every array has one entry per grid point. polychromatic_turbulence_OTF has the same two exceptions, the range checked first; coherence_diameter raises exactly for an empty path and for wavelength 0; image_domain_defocus_radii exactly for focal length 0 (documented as slant_range), object_domain_defocus_radii for either distance 0.", "quantifier": "all grids including the empty one, band lists, ranges, sensors with a one-row filter kernel and scenarios at or above the ground", "why_tests_cant": "the tests pass empty grids only together with empty band lists, so they cannot tell which of the two raises", "anchors": ["src/pybsm/otf/functional.py:common_OTFs", "src/pybsm/otf/functional.py:polychromatic_turbulence_OTF", "src/pybsm/otf/functional.py:coherence_diameter", "src/pybsm/otf/functional.py:image_domain_defocus_radii", "src/pybsm/otf/functional.py:object_domain_defocus_radii"]}
{"id": "C130", "title": "Documented infinite and undefined outputs", "statement": "The docstrings warn that outputs can be infinite or nan. Exactly: detector_OTF is nan at every frequency if and only if f is 0. With a positive coherence diameter turbulence_OTF is finite for every positive D; for D = 0 it is infinite for a short exposure (alpha > 0) away from zero frequency and nan at zero frequency, at wavelength 0 and for alpha 0; at wavelength 0 with an aperture it is 1. wind_speed_turbulence_OTF is nan at every frequency for D = 0 and finite otherwise. wavefront_OTF at wavelength 0 is 1, and nan only with a correlation length 0 or infinite phase variance. weighted_by_wavelength with weights all 0 is nan in every entry. coherence_diameter is infinite for one sample and without turbulence; with two samples of a uniform path it does not fail, it returns 0.84 of Fried's value. circular_aperture_OTF with eta 1 is infinite at zero frequency and elsewhere 0/0, nan.", "quantifier": "all frequencies, wavelengths, apertures, coherence diameters, weights, paths", "why_tests_cant": "the tests check isnan or isinf at single points; a warning that says 'can be' does not say for which inputs", "anchors": ["src/pybsm/otf/functional.py:detector_OTF", "src/pybsm/otf/functional.py:turbulence_OTF", "src/pybsm/otf/functional.py:wind_speed_turbulence_OTF", "src/pybsm/otf/functional.py:wavefront_OTF", "src/pybsm/otf/functional.py:weighted_by_wavelength", "src/pybsm/otf/functional.py:coherence_diameter", "src/pybsm/otf/functional.py:circular_aperture_OTF"]}
{"id": "C131", "title": "Sampling error of the edge response", "statement": "For a transfer function m that ends at the frequency W, stays within [-1, 1] and changes by at most L per W, the number edge_response returns for n samples of m is the image of a unit step, 1/2 + (1/pi) times the integral of m(w) sin(2 pi k w)/w over the frequencies, k being the angle of the position asked for, up to ((a L + a^2/2)/(4 n) + a L/(2 n^2) + a^2/(2e6 W))/pi with a = 2 pi k W; relative_edge_response is the difference of two such images, half a pixel either side of the edge, up to twice that with a = pi ifov W. The samples circular_aperture_OTF returns for a lens without obscuration meet the hypotheses with L = 4/pi; for the camera of the repository's examples and the 50 samples of niirs the relative edge response is right to 0.035. For pixels that are large compared with the reciprocal of the frequency step no number of samples helps: a response of at most 1.5 is returned as 1.99. edge_height_overshoot returns, up to the error e for a = 6 pi ifov W, one of the nine images 1 to 3 pixels from the edge: the one at 1.25 pixels if the images rise by more than 2 e from place to place, the largest if they fall by 2 e somewhere.", "quantifier": "all transfer functions with bounded slope, cutoff frequencies, numbers of samples, positions and fields of view", "why_tests_cant": "the integral for every transfer function: the tests compare with stored outputs of the same sum", "anchors": ["src/pybsm/metrics/functional.py:edge_response", "src/pybsm/metrics/functional.py:relative_edge_response", "src/pybsm/metrics/functional.py:edge_height_overshoot"]}
{"id": "C132", "title": "Sampling error of the edge responses niirs5 rates", "statement": "circular_aperture_OTF changes by at most 4 lambda/(pi (1-eta) D) times the change of the radial frequency, for every obscuration. For every sound camera and atmosphere, the two relative edge responses niirs5 returns are those of the image, i.e. of the integral over all frequencies of the product of aperture, turbulence, detector, jitter, drift and wavefront transfer functions weighted with the photoelectrons of the target, up to the error C131 gives for 50 samples and a slope that is the sum of those of the factors: 4 lmax/(lmin pi (1-eta)), pi W/2 times the angular width of the detector and of the smear, sqrt(2) pi W times the jitter, W pv pv_wavelength^2/(lmin Lx), and, if there is turbulence, 1.8 D/r0 with r0 at the shortest wavelength.", "quantifier": "all cameras, spectra, integration times and atmospheres; with turbulence, bands of at most a factor of four in wavelength", "why_tests_cant": "the exact edge response of every camera: the tests compare with stored outputs of the same sums", "anchors": ["src/pybsm/metrics/functional.py:niirs5", "src/pybsm/metrics/functional.py:relative_edge_response", "src/pybsm/otf/functional.py:circular_aperture_OTF", "src/pybsm/otf/functional.py:common_OTFs"]}
{"id": "C133", "title": "How far the ratings move with their inputs", "statement": "If both edge responses are right within a factor k and the ground sample distance within a factor j, the GIQE 5 rating is right within (3.32 + 8 M^3) log10 k + 3.32 log10 j + (6.308 M + 1.8) |1/s - 1/s'|, M bounding the logarithm of the mean edge response and s, s' the signal-to-noise ratios; the GIQE 3 rating within 3.32 (log10 k + log10 j) plus 1.48 times the change of overshoot plus the change of gain over signal-to-noise ratio; the GIQE 4 rating within 2.817 log10 k + 3.32 log10 j + 0.656 times the change of overshoot + 0.334 times the change of gain over signal-to-noise ratio while both edge responses lie on one side of 0.9, and across 0.9 within 0.16 |log10| of the ground-plane distance in inches + 1.258 log10(10/9) more. relative_edge_response is right within a factor k once the share of the slope that n samples may lose is at most 1 - 1/k and a pixel is at most half a period of the last frequency. Together: the rating niirs5 returns is the rating of the exact edge responses of camera and atmosphere up to (3.32 + 8 M^3) log10 k.", "quantifier": "all edge responses, distances, signal-to-noise ratios, transfer functions, cameras, scenarios and atmospheres that meet the sampling condition", "why_tests_cant": "a bound on the difference of two ratings for all pairs of inputs; the exact edge response is an integral that no test evaluates", "anchors": ["src/pybsm/metrics/functional.py:giqe5", "src/pybsm/metrics/functional.py:giqe3", "src/pybsm/metrics/functional.py:giqe4", "src/pybsm/metrics/functional.py:relative_edge_response", "src/pybsm/metrics/functional.py:niirs5"]}
{"id": "C134", "title": "Which columns of the atmosphere are used", "statement": "total_radiance and giqe_radiance of a loaded atmosphere give, in row i, path emission (column 2) plus scattered sunlight (column 4) plus (1 - r) times the blackbody curve at the wavelength of column 0 times the transmission of column 1 plus r/0.15 times the reflected sunlight of column 5; the path radiance of niirs and niirs5 is column 2 plus column 4; the rows they keep are exactly those with lo <= wavelength <= hi. The surface emission of column 3 has no influence: atmospheres that differ in it only give the same results, or the same exceptions, in niirs, niirs5, reflectance_to_photoelectrons and simulate_image.", "quantifier": "all atmospheres of 1371 rows with non-zero wavelengths, reflectances, temperatures, cameras, scenarios", "why_tests_cant": "independence of a column for all contents; a swapped column changes numbers but raises nothing", "anchors": ["src/pybsm/radiance/functional.py:total_radiance", "src/pybsm/radiance/functional.py:giqe_radiance", "src/pybsm/radiance/functional.py:reflectance_to_photoelectrons", "src/pybsm/metrics/functional.py:niirs", "src/pybsm/metrics/functional.py:niirs5", "src/pybsm/simulation/functional.py:simulate_image"]}
{"id": "C135", "title": "Cameras that see no wavelength of the atmosphere", "statement": "A sensor without optics wavelengths makes niirs, niirs5, reflectance_to_photoelectrons and simulate_image raise IndexError before anything is written. A sensor whose band holds no wavelength of the atmosphere makes niirs, niirs5 and simulate_image raise ValueError; by then niirs and niirs5 have overwritten the reflectances (and for thermal bands the temperature) of the caller's scenario, but not the kernel of the sensor. With the database this happens exactly for bands that end below 0.3 micrometres, begin above 14 micrometres, or lie strictly between two neighbouring samples 10 nm apart, such as 551 to 559 nm.", "quantifier": "all sensors with optics and efficiency tables of equal lengths and non-zero aperture, all atmospheres of 1371 rows, all scenarios", "why_tests_cant": "the tests use wide bands; the condition on the band is an equivalence over all real end points", "anchors": ["src/pybsm/radiance/functional.py:reflectance_to_photoelectrons", "src/pybsm/metrics/functional.py:niirs", "src/pybsm/metrics/functional.py:niirs5", "src/pybsm/simulation/functional.py:simulate_image"]}
{"id": "C136", "title": "Sensors that no analysis accepts", "statement": "If the transmission table does not have the length of its wavelengths, or the efficiency table is empty or does not have the length of its wavelengths (as after assigning qe without qe_wavelengths), niirs, niirs5, reflectance_to_photoelectrons and simulate_image raise ValueError for every atmosphere; with sound tables and an aperture of diameter zero they raise ZeroDivisionError. When niirs and niirs5 raise, the reflectances of the caller's scenario (and its temperature for bands from 2.9 micrometres on) have already been overwritten, while the sensor still has its kernel. With a focal length of zero and everything else sound, niirs and niirs5 raise ZeroDivisionError too, and by then niirs5 has replaced the sharpening kernel.", "quantifier": "all sensors with at least one optics wavelength, all atmospheres, scenarios and times; for the focal length: sensors with sound tables, atmospheres in which they respond somewhere, altitudes above 0", "why_tests_cant": "the exceptions hold for every atmosphere and scenario; no test assigns tables of unequal length", "anchors": ["src/pybsm/radiance/functional.py:resample_by_wavelength", "src/pybsm/radiance/functional.py:photon_detector_SNR", "src/pybsm/radiance/functional.py:reflectance_to_photoelectrons", "src/pybsm/metrics/functional.py:niirs", "src/pybsm/metrics/functional.py:niirs5", "src/pybsm/simulation/functional.py:simulate_image"]}
{"id": "C137", "title": "Parameters of sensors and scenarios that are ignored", "statement": "The sensor parameter other_irradiance, documented as irradiance of the focal plane from other sources such as stray light, changes nothing: niirs, niirs5, reflectance_to_photoelectrons and simulate_image give the same results for every value of it, so the irradiance they count beside the scene does not contain it (refuted). The catch-all other_noise, frame_stacks and max_well_fill change neither reflectance_to_photoelectrons nor the pictures of simulate_image. The reflectances and temperatures of target and background in the scenario change no metric of niirs and niirs5 and no picture of simulate_image.", "quantifier": "all sensors, scenarios, atmospheres, reference images, random draws and values of the parameters", "why_tests_cant": "independence of a parameter quantifies over all its values and all other inputs; the tests only check that the parameters are stored", "anchors": ["src/pybsm/simulation/sensor.py:Sensor", "src/pybsm/radiance/functional.py:photon_detector_SNR", "src/pybsm/radiance/functional.py:reflectance_to_photoelectrons", "src/pybsm/metrics/functional.py:niirs", "src/pybsm/metrics/functional.py:niirs5", "src/pybsm/simulation/functional.py:simulate_image"]}
