G = "src/pybsm/geospatial.py"
prop("C01", "Slant range is the straight-line distance over a circular Earth",
 "curved_earth_slant_range(ht, hs, g) equals the Euclidean distance between a target at height ht and a sensor at height hs placed on a circle of radius r_earth with central angle g/r_earth. It is therefore never NaN, is symmetric in the two heights, is |hs-ht| when g=0, and strictly increases with g up to half the circumference.",
 "all real heights above the Earth's centre and all ground ranges",
 "a test compares a handful of numbers; agreement with Euclidean geometry has to hold for every height pair and ground range",
 [G+":curved_earth_slant_range"])
prop("C02", "Nadir angle is the true angle at the sensor and is never NaN for a real triangle",
 "Feeding the slant range of curved_earth_slant_range into nadir_angle returns a number in [0, pi] equal to the angle between the direction to the Earth's centre and the direction to the target. A target straight below gives 0. nadir_angle raises ZeroDivisionError exactly when 2*(r_earth+hs)*slant_range is 0 and returns NaN exactly when no triangle with those sides exists.",
 "all heights, ground ranges and slant ranges",
 "arccos is undefined outside [-1,1]; only a proof shows the argument can never leave the interval for any geometry",
 [G+":nadir_angle", G+":curved_earth_slant_range"])
prop("C03", "Slant path starts at the target and ends at the sensor",
 "altitude_along_slant_path returns 10000 samples; z_path runs from 0 to slant_range in equal steps; h_path[0] is h_target, h_path[-1] is h_sensor, and h_path[i] is the height above the circular Earth of the point of the straight segment lying z_path[i] metres from the target. No sample is NaN.",
 "all geometries (heights, slant ranges) that form a triangle, and all sample indices",
 "10000 samples per geometry and a reversed array: a test only looks at a few of them for one geometry",
 [G+":altitude_along_slant_path"])
prop("C04", "Heights along the slant path stay below the higher end point",
 "Every height returned by altitude_along_slant_path is at most max(h_target, h_sensor) (the segment is inside the disc through the higher end).",
 "all triangle geometries and all sample indices",
 "a universally quantified convexity statement over continuous inputs",
 [G+":altitude_along_slant_path"])
prop("C05", "Elevation angle used by the image-quality equations",
 "The elevation angle pi/2 - nadir_angle(0, altitude, slant) used by niirs/niirs5 satisfies sin(elev) > 0 for every sensor above the ground, so the ground-plane GSD is always finite. It differs from the elevation angle measured at the target (the documented meaning) by exactly the central angle ground_range/r_earth.",
 "all altitudes > 0 and ground ranges",
 "needs trigonometric reasoning over a continuum; tests only check single numbers that were produced by the code itself",
 [G+":nadir_angle", "src/pybsm/metrics/functional.py:niirs", "src/pybsm/metrics/functional.py:niirs5"])
N = "src/pybsm/noise.py"
prop("C06", "Noise gain is the L2 norm of an accepted kernel",
 "noise_gain raises ValueError exactly when the kernel entries do not sum to 1 and otherwise returns sqrt(sum k^2). The result is at least 1/sqrt(number of entries), equals that bound only for the box kernel, is at most 1 for kernels without negative entries, and is exactly 1 for the identity kernel.",
 "all kernels of any size",
 "kernels of arbitrary size and content; Cauchy-Schwarz is not testable",
 [N+":noise_gain"])
prop("C07", "Float rounding in the kernel normalisation check",
 "Because the check compares np.sum(kernel) with 1.0 in binary64, kernels whose decimal entries sum to exactly one can be rejected. The claim 'every kernel whose written entries sum to one is accepted' is false of the binary64 model. A kernel whose entries are multiples z/2^e with sum of |z| at most 2^53 is rejected exactly if its sum is not one, and its gain is then the root of the sum of squares, rounded once; in particular this holds for entries written in quarters.",
 "kernels of binary64 numbers",
 "tests use kernels such as ones or sums of powers of two which are exact; the rejected ones depend on rounding",
 [N+":noise_gain"])
prop("C08", "Quantization noise is the standard deviation of a uniform one-count error",
 "quantization_noise(r, b)^2 is the variance of an error uniformly distributed over one ADC step r/(2^b-1); it is non-negative for r >= 0, linear in r, strictly decreasing in b, and b = 0 gives inf (r>0) or NaN (r=0) instead of raising.",
 "all ranges and bit depths",
 "relation to an integral over all error values",
 [N+":quantization_noise"])
U = "src/pybsm/utils.py"
prop("C09", "Exact database lookup returns the one matching atmosphere or raises IndexError",
 "load_database_atmosphere_no_interp(alt, g, ihaze) succeeds exactly when the decoder table lists (alt, g, ihaze) and the file it names holds 1371 x 5 values (written column by column); the table contains no duplicate key so the answer does not depend on row order; an unlisted key or a missing file raises IndexError, a file of another size (such as the pointer left by a checkout without git-lfs) raises ValueError.",
 "all altitudes, ground ranges, ihaze values; all 3430 decoder rows; all contents of the atms directory, missing and damaged files included",
 "the input space is infinite and the table has 3430 rows; tests hit a few",
 [U+":load_database_atmosphere_no_interp", "src/pybsm/atms/fileDecoder.csv"])
prop("C10", "Interpolating loader rejects out-of-range requests",
 "load_database_atmosphere raises IndexError for every altitude outside [2, 20000] m or ground range outside [0, 300000] m, whatever the state of the database files (so without reading one); inside that range it returns an atmosphere or raises IndexError, unless a file is damaged (ValueError).",
 "all altitudes and ground ranges",
 "infinite input space",
 [U+":load_database_atmosphere"])
prop("C11", "Interpolation is exact at database nodes",
 "When the altitude is one of the grid altitudes and the ground range is one of the grid ranges, load_database_atmosphere returns exactly what load_database_atmosphere_no_interp returns (including its exception).",
 "all grid altitudes, grid ranges, ihaze values and all database contents",
 "the database contents are a parameter; must hold for whatever the binary files contain",
 [U+":load_database_atmosphere", U+":load_database_atmosphere_no_interp"])
prop("C12", "Interpolated atmospheres stay between the bracketing database atmospheres",
 "Whenever load_database_atmosphere succeeds, each entry of the result is a convex combination of the same entry of at most four stored atmospheres, whose altitudes and ranges are the tightest grid values around the request; hence transmission stays in [0,1] if the stored transmissions do.",
 "all successful requests, all 1371x6 entries, all database contents",
 "a bound over all inputs and all stored data",
 [U+":load_database_atmosphere"])
prop("C13", "Interpolation keeps the wavelength column",
 "Column 0 of the interpolated atmosphere is the same wavelength grid (0.3 to 14 micrometres, increasing) as in every stored atmosphere.",
 "all successful requests",
 "weights must sum to one for every request",
 [U+":load_database_atmosphere", U+":load_database_atmosphere_no_interp"])
prop("C14", "Every altitude in the advertised range can be interpolated",
 "For every altitude in [2, 20000] m there is an atmosphere at ground range 0. FALSE: the code brackets with 32.55 m while the database stores 0.0325 km, so every altitude strictly between 2 and 75 m raises IndexError (ValueError if it first meets a damaged file). The exact success set is characterised: a request succeeds iff its altitude is not in (2,75) and both bracketing (altitude, range) cells are present in the decoder.",
 "all altitudes and ground ranges in the advertised range",
 "the failing set is an interval between two grid nodes that the tests never visit",
 [U+":load_database_atmosphere", "src/pybsm/atms/fileDecoder.csv"])
prop("C15", "Interpolation is piecewise bilinear and continuous",
 "Between neighbouring grid nodes the returned atmosphere is affine in altitude for fixed range and affine in range for fixed altitude, and the values obtained from the left and right cell agree at every node (no jumps).",
 "all requests, all database contents",
 "continuity is a statement about limits at every node",
 [U+":load_database_atmosphere"])
S = "src/pybsm/simulation/scenario.py"
prop("C16", "Scenario.atm never serves a stale atmosphere",
 "After any sequence of attribute assignments (ihaze, altitude, ground_range, and the plain attributes) and atm reads, successful or failing, reading atm returns exactly what a freshly constructed scenario with the current parameters would return.",
 "all finite histories of operations, all database behaviours (including ones that raise)",
 "cache coherence has to hold for every interleaving of reads, writes and failures",
 [S+":Scenario.atm", S+":Scenario.altitude", S+":Scenario.ground_range", S+":Scenario.ihaze"])
prop("C17", "Scenario.atm loads at most once between invalidations",
 "In any history the number of database loads that succeed is at most one plus the number of assignments to ihaze/altitude/ground_range, and a read directly after a successful read performs no load.",
 "all finite histories",
 "counts over unbounded histories",
 [S+":Scenario.atm"])
prop("C18", "A failed atmosphere load leaves the scenario usable",
 "If reading atm raises, the scenario is unchanged; fixing the offending parameter and reading again returns the right atmosphere.",
 "all histories containing failing loads",
 "failure points anywhere in a history",
 [S+":Scenario.atm"])
prop("C19", "Cached atmosphere is aliased to the caller",
 "The array returned by atm is the cache itself: the claim 'reading atm twice with unchanged parameters returns the stored database atmosphere' is false if the caller modified the first result in place.",
 "all caller-side modifications",
 "aliasing is visible only after specific mutation histories",
 [S+":Scenario.atm"])
prop("C20", "Sensor defaults",
 "Omitting p_y, w_x, w_y yields p_y = p_x, w_x = p_x (100% fill). The documented rule for the omitted w_y ('same fill factor as along x') is false: the constructor sets w_y/p_y = p_x/w_x, the reciprocal fill factor; it agrees only when w_x = p_x. Omitted w_y with w_x = 0 raises ZeroDivisionError.",
 "all pitches and widths",
 "all combinations of optional arguments and all values",
 ["src/pybsm/simulation/sensor.py:Sensor.__init__"])
R = "src/pybsm/simulation/ref_image.py"
prop("C21", "Reference image calibration defaults",
 "RefImage without pix_values uses the 0.2 and 99.8 percentiles (which always satisfy p0.2 <= p99.8 and lie within the image range, at the rank the name says and linearly between neighbouring values of the sorted image) with reflectances 0.05 and 0.95; with pix_values but no refl_values raises ValueError; refl_values given without pix_values is silently discarded.",
 "all images and calibration arrays",
 "percentile ordering over all images; argument combinations",
 [R+":RefImage.__init__"])
prop("C22", "Estimated capture parameters reproduce the image sampling",
 "estimate_capture_parameters(altitude) returns a sensor and scenario whose ground sample distance p/f*altitude equals the image gsd, whose diffraction spot (lambda/D) is a quarter of the pixel field of view, whose turbulence is off, and raises ZeroDivisionError for gsd = 0. The default altitude 2e6 m is not in the database, so reading the atmosphere of the default scenario raises IndexError. The image is more than 12 times coarser than the sampling guide in the documentation of simulate_image (imggsd <= rng/(4 coff)) asks for with this camera, at every wavelength of its band and whatever the gsd and altitude.",
 "all gsd values and altitudes",
 "algebraic consistency over all inputs",
 [R+":RefImage.estimate_capture_parameters"])
prop("C101", "Scenario attributes read back what was assigned",
 "After any sequence of assignments, atmosphere reads and in-place edits, every plain attribute holds the value of its last assignment (its constructor value if none), and ihaze, altitude and ground_range hold the values last set.",
 "all loaders, constructor arguments and histories",
 "all histories of any length",
 ["src/pybsm/simulation/scenario.py:Scenario"])
prop("C110", "Looking straight down in double precision",
 "With ground_range 0 and an altitude that is a whole number of eighths of a metre (up to 1000 km) the computed slant range equals the altitude and the nadir angle is arccos(1) exactly, in niirs/niirs5 as well as in simulate_image. For every altitude from 2 m to 24500 m the squared slant range is off by at most 0.02 square metres. But that the nadir angle is always a number is false: of the 244981 altitudes 2.0, 2.1, ..., 24500.0 m at least 97992 (for example 609.6 m = 2000 ft) round to a cosine above one, so np.arccos gives nan; whenever the slant range is below the altitude the turbulence factor, the system transfer function and the ratings of both quality equations are nan as well.",
 "all altitudes (eighths of a metre; decimetres; any binary64 number in the range of the database)",
 "the wrong altitudes are not whole metres (the only ones tests use) and no exception is raised: the result is nan; interp=True is needed to load the atmosphere at such altitudes",
 ["src/pybsm/geospatial.py:nadir_angle", "src/pybsm/geospatial.py:curved_earth_slant_range", "src/pybsm/geospatial.py:altitude_along_slant_path",
  "src/pybsm/metrics/functional.py:niirs", "src/pybsm/metrics/functional.py:niirs5", "src/pybsm/simulation/functional.py:simulate_image"])
prop("C125", "Arguments of the Scenario constructor",
 "Scenario(name, ihaze, altitude, ground_range) has the documented attributes (aircraft speed 0, reflectances 0.15 and 0.07, temperatures 295 and 293 K, high-altitude wind 21 m/s, cn2 1.7e-14) and exact table lookup: after any program an attribute the program did not assign still has the documented value, and atm is the table's exact row for the current parameters. In a call with positional and keyword arguments each parameter takes the value the caller wrote for it, the others their defaults; a ninth positional value or a parameter given twice is a TypeError. The fifth positional value is the aircraft speed, so Scenario(name, ihaze, altitude, ground_range, True) never interpolates and flies at 1 m/s.",
 "all argument lists, keyword sets and programs, all loaders",
 "tests construct three scenarios; test_atm_index_error passes interp positionally, so its four interpolating cases exercise the exact lookup",
 [S+":Scenario.__init__", S+":Scenario.atm"])
