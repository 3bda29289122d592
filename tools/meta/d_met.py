M = "src/pybsm/metrics/functional.py"
prop("C75", "Edge response is antisymmetric about the edge",
 "edge_response(x)+edge_response(-x) = 1 for every MTF, and edge_response(0)=1/2; relative_edge_response = 2*edge_response(1/2) - 1; it is linear in the MTF.",
 "all MTF slices, spacings and positions",
 "identity over all arrays",
 [M+":edge_response", M+":relative_edge_response"])
prop("C76", "Edge height overshoot",
 "edge_height_overshoot is one of the nine sampled edge responses at 1.0..3.0 pixels, is the one at 1.25 when the samples strictly increase and otherwise the maximum.",
 "all MTF slices",
 "all arrays",
 [M+":edge_height_overshoot"])
prop("C77", "Ground resolved distance is detector limited from below",
 "ground_resolved_distance is at least 2*ifov*slant_range, equals it when the MTF limit is finer, and is non-increasing in snr for a decreasing MTF.",
 "all MTF slices, snr, ifov, ranges",
 "all arrays",
 [M+":ground_resolved_distance"])
prop("C78", "GIQE 3 monotonicity",
 "giqe3 strictly decreases with GSD (by 3.32*log10(2) per doubling), decreases with overshoot, increases with RER and SNR, decreases with noise gain.",
 "all positive arguments",
 "monotonicity",
 [M+":giqe3"])
prop("C79", "GIQE 4 monotonicity and its jump",
 "giqe4 decreases with GSD and overshoot and increases with SNR. The claim that it is non-decreasing in RER is false: crossing RER=0.9 the result drops for every ground-plane GSD above about 2.3 inches. The claim that it is the published equation (Leachtenauer et al. 1997, cited in the docstring) is false: the coefficient of G/SNR is 0.334 instead of 0.344, so ratings are too high by exactly G/SNR/100.",
 "all positive arguments",
 "a jump at one value",
 [M+":giqe4"])
prop("C80", "GIQE 5 symmetry, mean and test case",
 "giqe5 is symmetric in the two RERs, its combined RER lies between them (equals them when equal), NIIRS strictly decreases with GSD and increases with elevation angle on (0, pi/2], the rating is the published formula in the cube root of max*min^2, and the documented test case gives NIIRS 5 within 0.05. If one RER is negative (contrast reversal) its sign is lost, so that a reversed edge can be rated above the upright one; if both are, the rating is NaN.",
 "all positive arguments",
 "symmetry and means over a continuum, numeric enclosure",
 [M+":giqe5"])
prop("C81", "niirs overwrites the scenario with the GIQE defaults",
 "After niirs the scenario carries the documented GIQE values. FALSE in emissive mode: the target temperature ends at 280 instead of 282 and the background temperature is not set.",
 "all scenarios and sensors",
 "side effects on caller-owned objects",
 [M+":niirs", M+":niirs5"])
prop("C82", "niirs5 permanently removes the sharpening kernel",
 "The result of niirs depends only on its arguments as configured by the user. FALSE: any earlier niirs5 call on the same sensor replaces its filter kernel with the identity, so niirs afterwards differs from niirs before.",
 "all call histories",
 "order-dependence of calls",
 [M+":niirs5", M+":niirs"])
prop("C83", "Repeating niirs or niirs5 is idempotent",
 "Calling niirs (niirs5) twice with the same objects returns the same metrics both times, and between them the sensor and scenario do not change any more.",
 "all sensors and scenarios",
 "history statement",
 [M+":niirs", M+":niirs5"])
prop("C84", "Scene and path noise split",
 "The scene noise reported by niirs is a real number (its squared path noise never exceeds the squared scene-and-path noise) for atmospheres with non-negative columns.",
 "all sensors and atmospheres",
 "a square root of a difference that must never be negative",
 [M+":niirs"])
prop("C85", "Frame stacking",
 "With n stacked frames niirs and niirs5 use sqrt(n) times the single-frame SNR and nothing else changes, so stacking more frames raises the GIQE 3, 4 and 5 ratings of a target brighter than its background (GIQE 5: for an edge response up to 1.9).",
 "all n",
 "all n",
 [M+":niirs", M+":giqe3"])
prop("C86", "Frequency grid of niirs",
 "The niirs frequency grid is 101x101, symmetric about zero with the zero frequency exactly at the centre, reaches the cutoff D/min wavelength, and is uniformly spaced.",
 "all sensors",
 "all grid points",
 [M+":niirs"])
I = "src/pybsm/simulation/functional.py"
prop("C87", "Reflectance images are in [0,1]",
 "img_to_reflectance returns reflectances in [0,1] for every image and every calibration of at least two points with different pixel values: the clipped value of the broken line through the points, extended beyond the outermost ones. It reproduces the calibration points, is monotone when the calibration is, and does not depend on the order of the points; empty or mismatched calibrations raise ValueError. Two natural readings are false: repeated pixel values among otherwise different ones can give NaN, and a single calibration point gives NaN instead of the documented ValueError.",
 "all images and calibrations",
 "extrapolation outside the calibrated range",
 [I+":img_to_reflectance"])
prop("C88", "What simulate_image computes",
 "For a sound camera, geometry, atmosphere and calibration the reflectance-to-photoelectron interpolation inside simulate_image never raises; the reference image is calibrated by the tables given to it, or by default so that the 0.2 percentile of its pixels has reflectance 0.05 and the 99.8 percentile 0.95; the true image is, pixel by pixel, the charge the camera collects from a 300 K target of the calibrated reflectance in an exposure shortened so that the brighter of black and white just fills the well, hence between 0 and max_n; the rest is the blur by the system OTF and the noise. A uniform scene stays uniform at the same level. If the point spread function has no negative values the blurred image stays within [0, max_n] and the simulation succeeds with count + g*normal in every pixel.",
 "all reference images, sensors, scenarios",
 "all images",
 [I+":simulate_image", "src/pybsm/radiance/functional.py:reflectance_to_photoelectrons"])
prop("C89", "Wiener filter",
 "wiener_filter with zero noise is the inverse filter; WF*OTF is real, in [0,1) for positive noise-to-signal; (1+nsr)*WF = 1 where OTF = 1; it minimises the expected squared restoration error at every frequency; OTF=0 with nsr=0 gives NaN.",
 "all complex OTF values and ratios",
 "optimality over all filters",
 [I+":wiener_filter"])
prop("C90", "8-bit contrast stretch",
 "stretch_contrast_convert_8bit yields integers in 0..255, is monotone in pixel value, maps pixels at or below the low percentile to 0 and at or above the high percentile to 255, and is invariant under positive affine rescaling of the image, whenever the two percentiles differ.",
 "all images and percentile pairs",
 "all images",
 [I+":stretch_contrast_convert_8bit"])
prop("C91", "Simulated Gaussian noise level",
 "The additive noise of simulate_image has variance equal to quantization variance plus read-noise variance and is zero only for a noiseless sensor. For draws with the first and second moments of Poisson and standard normal numbers, a noisy pixel has the blurred pixel as mean and shot plus additive noise as variance.",
 "all sensors",
 "all inputs",
 [I+":simulate_image"])
prop("C92", "instantaneous_FOV and ground sample distance compose",
 "ground_sample_distance(instantaneous_FOV(w,f), R) = w*R/f; zero focal length raises ZeroDivisionError; the flat small-angle ifov is at least the exact 2*arctan(w/2/f).",
 "all inputs",
 "inequality over a continuum",
 [I+":instantaneous_FOV", "src/pybsm/geospatial.py:ground_sample_distance"])
prop("C93", "Flat-earth slant range in simulate_image",
 "simulate_image uses sqrt(altitude^2+ground_range^2) while niirs uses the curved-Earth range. The flat range still forms a triangle with the Earth's centre for every ground range up to one Earth diameter, so the turbulence path is never NaN; the two ranges agree at ground range 0 and the claim that they agree in general is false.",
 "all altitudes and ground ranges",
 "comparison over a continuum",
 [I+":simulate_image", "src/pybsm/geospatial.py:altitude_along_slant_path"])
prop("C95", "niirs and niirs5 succeed on sound inputs",
 "For a camera with positive dimensions and sorted response tables, an atmosphere with non-negative columns in wavelength order that the camera can see somewhere, and a sensor above the ground, niirs returns finite slant range, SNR, GSD and noise gain whenever the filter kernel sums to one and raises ValueError whenever it does not; niirs5 always returns. SNR and spectral weights are those of the standard target and background at the wavelengths the camera sees; RER and overshoot are those of the system transfer function along its two axes, for that spectrum, integration time and slant range. With six pixels per resolution element, a band of at most three octaves and no sharpening the RER lies in (0, 1], the overshoot is at least one half and the GIQE 3 and 4 ratings are numbers unless the SNR is zero.",
 "all such sensors, scenarios, atmospheres and kernels",
 "totality of a long pipeline with divisions, roots and array indexing",
 [M+":niirs", M+":niirs5"])
prop("C96", "How simulate_image fails",
 "A camera without any signal from a white target gives ValueError (minimum of an empty array). A uniform reference image with the default calibration never yields an image: both default calibration values coincide and every reflectance is NaN. One negative pixel in the blurred image gives ValueError in the Poisson draw.",
 "all cameras, scenes and images of the three kinds",
 "classes of inputs on which a documented function cannot succeed",
 [I+":simulate_image", "src/pybsm/simulation/ref_image.py:RefImage"])
prop("C97", "The point spread function of simulate_image is modulated",
 "The PSF should be the inverse transform of the system OTF centred on the frame. simulate_image always samples the OTF on 1501 x 1501 points, and for this odd size what otf_to_psf computes is that PSF multiplied by cos(2 pi ((i-750)/1501 + (j-750)/1501)), for every sound camera without a filter kernel.",
 "all cameras, scenes and pixels",
 "the deviation is small at the centre of the frame and has no reference value",
 [I+":simulate_image", "src/pybsm/otf/functional.py:otf_to_psf"])
prop("C98", "Scenes too coarse to be blurred",
 "When a pixel of the reference image subtends more than half the frame on which the PSF is computed, simulate_image does not blur at all: it succeeds, and the blurred image is the true image resampled to the sensor's pixels.",
 "all such cameras, scenes and images",
 "whole-pipeline equality over all inputs of the class",
 [I+":simulate_image"])
prop("C99", "The transfer function of simulate_image",
 "For every sound camera without a filter kernel the system OTF array is 1501 x 1501 with positive spacing, real, symmetric under point reflection, and exactly 1 at its centre; it is non-negative when the detector's first zero lies beyond the optical cutoff.",
 "all cameras, scenes and grid points",
 "all grid points",
 [I+":simulate_image", "src/pybsm/otf/functional.py:common_OTFs"])
prop("C100", "simulate_image and the atmosphere cache",
 "simulate_image uses the atmosphere of the scenario's current parameters, leaves altitude, ground range and the plain attributes unchanged, loads the atmosphere at most once, and a second call with the same random numbers reuses the cache and gives the same result; a loader's exception is passed on.",
 "all loaders, scenarios and histories",
 "all states",
 [I+":simulate_image", "src/pybsm/simulation/scenario.py:Scenario.atm"])
prop("C105", "The noise chart is a budget",
 "For every result of niirs or niirs5 the noise chart can be drawn. Its first bar, squared, is the sum of the squares of the other six and of the camera's other_noise entries (so the visible bars account for it exactly when there is no other noise); the dark current bar is the Poisson noise of the dark electrons collected in the reported time; the numbers in the title are the whole electrons of the target, of the contrast and the whole percent of the well, the last never above the largest allowed fill.",
 "all physical cameras, atmospheres, scenarios and axis limits",
 "plots are not compared with anything; the identity holds for all inputs",
 [M+":plot_noise_terms", M+":niirs", M+":niirs5"])
prop("C106", "The MTF chart and its exception",
 "plot_common_MTFs never returns: plt.annotate is called with xy_text and arrow_props, which matplotlib does not know. What has been drawn by then, for a result of niirs or niirs5 and a slice along either axis, is right: the abscissae are the sampled frequencies in cycles per millimetre of the image plane, every curve shows the modulus of its component, the system's curve is the product of the seven others, the axes end at the largest frequency and at the largest value of the image processing curve, and the arrow would point to half a cycle per detector pitch.",
 "all sound cameras, atmospheres and scenarios; both axes",
 "the chart is only looked at; no test calls the function",
 [M+":plot_common_MTFs", M+":niirs", M+":niirs5"])
prop("C107", "The atmosphere database reaches exactly to the horizon",
 "For every altitude and ground range that the documentation lists, an atmosphere is stored exactly when the straight line from the ground point to the sensor clears the spherical Earth; the interpolating loader never returns an atmosphere for a target behind the horizon (though between grid points it may reject a target in sight). The look from space of the README (500 km) is not stored; at 550 km exactly the nadir view is.",
 "all documented altitude and range pairs, both haze models, all real altitudes and ranges for the interpolating loader, all file contents",
 "the interpolated requests form a continuum, and the horizon is a geometric condition on whole line segments",
 ["src/pybsm/utils.py:load_database_atmosphere", "src/pybsm/utils.py:load_database_atmosphere_no_interp", "src/pybsm/atms/fileDecoder.csv", "src/pybsm/atms/atmosphere_README.txt"])
prop("C108", "More electronic noise never improves a rating",
 "Replacing read noise, bit depth and other noise terms of a camera so that their total power grows changes nothing in a run of niirs or niirs5 but the signal to noise ratio, which moves towards zero; with a target brighter than its background no finite rating (GIQE 3, 4, and 5 for an edge response up to 1.9) rises. The standard target is never darker than the standard background for thermal cameras and for cameras that see nothing beyond 4 microns; for other cameras it can be darker, and then no finite rating falls as the noise grows.",
 "all physical cameras, all replacements of the noise terms, all atmospheres with non-negative columns in wavelength order, all scenarios",
 "a comparison of two whole runs for all cameras; tests look at single runs",
 [M+":niirs", M+":niirs5", M+":giqe3", M+":giqe4", M+":giqe5", "src/pybsm/radiance/functional.py:photon_detector_SNR", "src/pybsm/radiance/functional.py:giqe_radiance"])
prop("C109", "More blur or rougher air never improves the GIQE 5 rating of a well sampled camera",
 "For a camera whose pixels are no larger than a resolution element and whose band spans at most three octaves, more line-of-sight jitter, more wavefront error, more turbulence at the ground and more wind aloft leave contrast, sampling distance and elevation unchanged and never raise an edge response of niirs5 or niirs; with a target brighter than its background and edge responses at most one (which holds for two pixels per resolution element) the rating of niirs5 does not rise.",
 "all good cameras of this kind, all amounts of jitter, wavefront error, turbulence and wind, all atmospheres and scenarios with non-negative aircraft speed",
 "a comparison of two whole runs, through a 101 x 101 frequency grid, for a continuum of inputs",
 [M+":niirs5", M+":niirs", M+":giqe5", M+":giqe5_RER", "src/pybsm/otf/functional.py:common_OTFs", "src/pybsm/otf/functional.py:polychromatic_turbulence_OTF"])
prop("C111", "Turning the camera by a right angle",
 "Exchanging the x and y parameters of the camera (pitches, pixel sizes, jitter, drift, correlation lengths) leaves exposure, noise and contrast unchanged and mirrors the system transfer function about the diagonal. niirs (camera without sharpening mask) reports the same sampling distance, edge response, overshoot and ratings. niirs5 exchanges rer_0 and rer_90 and keeps the combined edge response; its rating moves by exactly 3.32 log10(p_x/p_y), so it is unchanged for square sampling grids only.",
 "all cameras, scenarios and atmospheres for which niirs and niirs5 work",
 "compares two runs of the whole computation over all cameras",
 [M+":niirs", M+":niirs5", M+":giqe5_RER", M+":giqe_edge_terms", "src/pybsm/otf/functional.py:common_OTFs"])
prop("C112", "Gain, offset and polarity of the reference image",
 "Remapping all pixel values x to a x + b with a > 0, together with the calibration table if there is one, changes nothing: img_to_reflectance returns the same reflectances (for every table, also short or repeated ones) and simulate_image the same three images; without a table RefImage finds the remapped calibration itself. With a < 0 (a negative) the same holds for explicit tables of at least two distinct pixel values. The default calibration (percentiles 0.2 and 99.8 for reflectances 0.05 and 0.95) turns a negative into the complement: every reflectance rho becomes 1 - rho, and the photoelectrons of the true and of the blurred image become those of a black target plus those of a white target less the original ones.",
 "all images, tables, gains and offsets, sensors, scenarios, loaders and random draws",
 "relates two runs of the whole simulation over all images and remappings",
 [I+":img_to_reflectance", I+":simulate_image", "src/pybsm/simulation/ref_image.py:RefImage.__init__"])
prop("C113", "Programs that call the analysis functions on several sensors and scenarios",
 "In any program of calls of niirs, niirs5 and simulate_image, uses of scenarios and assignments to sensors: striking out all assignments to target and background reflectance and temperature of scenarios changes no answer of any other statement; the answer of a call does not depend on the calls made before it (whether they worked or raised), unless niirs5 was called on its sensor and that sensor has a sharpening filter, in which case the answer can change; statements about other objects, assignments included, never change an answer. After a niirs5 that worked, simulate_image gives the pictures of the sensor without its sharpening filter.",
 "all programs, all numbers of sensors and scenarios, all loaders and random draws",
 "tests run a few calls on fresh objects; the statement is about all interleavings of calls and assignments",
 [M+":niirs", M+":niirs5", I+":simulate_image", "src/pybsm/simulation/scenario.py:Scenario"])
prop("C114", "Turning camera and scene together turns the pictures",
 "Exchange the x and y parameters of a camera without sharpening mask, and the rows and columns of the reference image and of the random numbers. Then simulate_image succeeds if and only if it did before, and its true, blurred and noisy images are the former ones with rows and columns exchanged, pixel for pixel. RefImage finds the same calibration for the exchanged image, and the table of photoelectrons against reflectance does not change.",
 "all reference images, cameras, scenarios, atmospheres and random draws for which the simulation is meant to work; the calibration and the table for all inputs",
 "compares two runs of the whole simulation over all images and cameras, pixel for pixel",
 [I+":simulate_image", I+":img_to_reflectance", "src/pybsm/simulation/ref_image.py:RefImage.__init__", "src/pybsm/otf/functional.py:apply_otf_to_image", "src/pybsm/otf/functional.py:otf_to_psf", "src/pybsm/otf/functional.py:resample_2D", "src/pybsm/radiance/functional.py:reflectance_to_photoelectrons"])
prop("C115", "Sampling at the native spacing",
 "resample_2D with equal spacings keeps the size of the image, rounding errors included, and more generally returns the integer nearest to the exact quotient whenever that is not within 0.01 of a tie. otf_to_psf asked for its own spacing keeps its size or loses one sample. The sensor and scenario of estimate_capture_parameters keep the size of the reference image, rounding errors included, at every altitude and ground sample distance. For any camera whose pixels cover as much ground as those of the reference image, simulate_image resamples nothing: its three images have the size of the reference image, and the blurred one is the true one correlated with a kernel of sum one.",
 "all sizes up to 2^40 or more and all binary64 spacings in a range of hundreds of powers of two; all images, cameras, scenarios, atmospheres and random draws",
 "an off-by-one size appears for a few percent of the spacings only, and tests use round numbers",
 ["src/pybsm/otf/functional.py:otf_to_psf", "src/pybsm/otf/functional.py:resample_2D", "src/pybsm/simulation/ref_image.py:RefImage.estimate_capture_parameters", I+":simulate_image"])
prop("C116", "Where blurring puts the picture",
 "For a real transfer function that looks the same upside down, on an odd number of samples, otf_to_psf gives a point-symmetric kernel of sum one, provided the 95 percent crop keeps the middle. Its sides are odd exactly when the frame of the point spread function is an odd number of picture pixels wide. Therefore apply_otf_to_image at matched pixels leaves a plane of brightness where it is when that number is odd, and displaces it by half a pixel down and to the right when it is even. The same holds for simulate_image with a camera whose pixels match those of the reference image and has no sharpening mask. The camera of RefImage.estimate_capture_parameters always gets a frame of 131 pixels (135 where the 380 nm sample is missing), whatever the picture and altitude, and so leaves planes of brightness unchanged, as the 'no-degradation baseline' of its documentation requires.",
 "all pictures, transfer functions, spacings, ground sample distances and ranges; for simulate_image all reference images, cameras, scenarios, atmospheres and random draws for which it is meant to work, when the frame is less than 4 or at least 1501 pixels wide or one of the crop windows 10, 15, 20, ... takes it in exactly",
 "a displacement by half a pixel is invisible in reference pictures, and the larger ones need unusual sizes",
 ["src/pybsm/otf/functional.py:otf_to_psf", "src/pybsm/otf/functional.py:apply_otf_to_image", I+":simulate_image"])
prop("C117", "The atmosphere loaders in double precision",
 "load_database_atmosphere_no_interp succeeds exactly for the binary64 numbers nearest to the stored altitudes and ranges, although it divides its arguments by 1000 before it compares them, and no two rows of the table can match. load_database_atmosphere agrees with it at the grid points, refuses nan, the infinities and everything outside 2..20000 m and 0..300000 m, and otherwise succeeds exactly when it would in exact arithmetic, with every entry within a relative 2^-48 of the exact interpolation. Rounding takes no entry below zero or above a power of two that bounds the files, so transmissions stay in [0, 1]. Interpolation keeps the wavelength column.",
 "all binary64 altitudes and ranges (for the lookup: ranges that are zero or at least 2^-1000 in size), haze modes and database directories of whole files with numbers up to 2^799",
 "equality tests on divided decimals and weights that sum to one only before rounding fail for a sparse set of inputs; tests use a handful of altitudes",
 ["src/pybsm/utils.py:load_database_atmosphere_no_interp", "src/pybsm/utils.py:load_database_atmosphere"])
prop("C118", "Spectral bands in double precision",
 "The rows of the atmosphere that niirs, niirs5 and photon_detector_SNR keep for a camera are the wavelengths 0.30, 0.31, ... 14.00 micrometres between the first and the last wavelength of the optics, for band limits that are not within a relative 2^-48 of one of these marks; a camera is treated as emissive exactly when its first wavelength is at least 2.9 micrometres, unless it is within a relative 2^-51 of that. For band limits at a mark: the sample at the mark belongs to the band, and the samples of a band do not depend on the altitude.",
 "all binary64 band limits, altitudes, ranges, haze modes and database directories",
 "one of 17 samples disappears for one altitude in ten only, and the effect is a darker picture, not an error",
 ["src/pybsm/metrics/functional.py:niirs", "src/pybsm/metrics/functional.py:niirs5", "src/pybsm/radiance/functional.py:photon_detector_SNR", "src/pybsm/utils.py:load_database_atmosphere"])
prop("C119", "What apply_otf_to_image computes, pixel by pixel",
 "The kernel is the inverse Fourier transform of the OTF, resampled by linear interpolation to the angular pixel size of the scene, cut to the smallest of the windows 10, 15, 20, ... that holds more than 95 percent of its sum (or the last window below the OTF's size) and rescaled to sum one; otf_to_psf fails exactly when one of the two sums is zero. Every pixel of the blurred image is the linear interpolation, at the image's own pixel size, of the correlation of the mirrored scene with that kernel, every pixel of the returned point spread function the interpolation of the kernel, and the sizes are those of the scene and the kernel times the ratio of the pixel angles, rounded half to even.",
 "all images of at least 2 x 2 pixels, OTFs of more than 10 samples a side, ranges, ground sample distances and fields of view",
 "every pixel of every image, and the window for every point spread function",
 [O+":apply_otf_to_image", O+":otf_to_psf", O+":resample_2D"])
prop("C120", "All three pictures of simulate_image, end to end",
 "For a sound camera with any sharpening kernel, a sound geometry, atmosphere and calibration and a reference image of at least 2 x 2 pixels, the three pictures simulate_image returns are given by formulas in the inputs: the true image by the charge collected from the calibrated reflectance; the blurred image by correlating the mirrored true image with the kernel of C119 for the 1501 x 1501 samples of the product of aperture, turbulence, detector, jitter, drift and wavefront transfer functions and the kernel's response (C52), averaged over the wavelengths with the photoelectrons of a white target as weights, the coherence diameter being Fried's integral over the straight path above the round Earth; the noisy image by a count drawn for the blurred pixel plus a normal number times the combined rounding and read noise.",
 "all cameras, scenarios, atmospheres, reference images and random draws",
 "the chain of a dozen functions for all inputs; the tests compare one picture with a stored one",
 [I+":simulate_image", O+":common_OTFs", O+":apply_otf_to_image", "src/pybsm/radiance/functional.py:reflectance_to_photoelectrons"])
prop("C121", "niirs and niirs5 in closed form",
 "For a sound camera and atmosphere every number niirs and niirs5 return is a formula in the inputs: slant range and elevation from the triangle of Earth's centre, target and camera; the integration time cut back so that the brighter of target and background just fills the allowed part of the well; the signal-to-noise ratio (difference of charges over root of the brighter charge plus electronic noise power); both edge responses and overshoots from 50 samples along each axis of the product of aperture, turbulence, detector, jitter, drift, wavefront and (niirs) sharpening transfer functions, weighted with the photoelectrons of the target; noise gain; ground sample distances; and the ratings by GIQE 3, GIQE 4 (with 0.334) and GIQE 5. Edge responses whose product is negative give NaN in niirs; in niirs5 only two negative ones do.",
 "all cameras, kernels, scenarios and atmospheres",
 "the whole chain for all inputs; the tests compare a few stored numbers",
 [M+":niirs", M+":niirs5", O+":common_OTFs", "src/pybsm/radiance/functional.py:photon_detector_SNR"])
prop("C131", "Sampling error of the edge response",
 "For a transfer function m that ends at the frequency W, stays within [-1, 1] and changes by at most L per W, the number edge_response returns for n samples of m is the image of a unit step, 1/2 + (1/pi) times the integral of m(w) sin(2 pi k w)/w over the frequencies, k being the angle of the position asked for, up to ((a L + a^2/2)/(4 n) + a L/(2 n^2) + a^2/(2e6 W))/pi with a = 2 pi k W; relative_edge_response is the difference of two such images, half a pixel either side of the edge, up to twice that with a = pi ifov W. The samples circular_aperture_OTF returns for a lens without obscuration meet the hypotheses with L = 4/pi; for the camera of the repository's examples and the 50 samples of niirs the relative edge response is right to 0.035. For pixels that are large compared with the reciprocal of the frequency step no number of samples helps: a response of at most 1.5 is returned as 1.99. edge_height_overshoot returns, up to the error e for a = 6 pi ifov W, one of the nine images 1 to 3 pixels from the edge: the one at 1.25 pixels if the images rise by more than 2 e from place to place, the largest if they fall by 2 e somewhere.",
 "all transfer functions with bounded slope, cutoff frequencies, numbers of samples, positions and fields of view",
 "the integral for every transfer function: the tests compare with stored outputs of the same sum",
 [M+":edge_response", M+":relative_edge_response", M+":edge_height_overshoot"])
prop("C132", "Sampling error of the edge responses niirs5 rates",
 "circular_aperture_OTF changes by at most 4 lambda/(pi (1-eta) D) times the change of the radial frequency, for every obscuration. For every sound camera and atmosphere, the two relative edge responses niirs5 returns are those of the image, i.e. of the integral over all frequencies of the product of aperture, turbulence, detector, jitter, drift and wavefront transfer functions weighted with the photoelectrons of the target, up to the error C131 gives for 50 samples and a slope that is the sum of those of the factors: 4 lmax/(lmin pi (1-eta)), pi W/2 times the angular width of the detector and of the smear, sqrt(2) pi W times the jitter, W pv pv_wavelength^2/(lmin Lx), and, if there is turbulence, 1.8 D/r0 with r0 at the shortest wavelength.",
 "all cameras, spectra, integration times and atmospheres; with turbulence, bands of at most a factor of four in wavelength",
 "the exact edge response of every camera: the tests compare with stored outputs of the same sums",
 [M+":niirs5", M+":relative_edge_response", O+":circular_aperture_OTF", O+":common_OTFs"])
prop("C133", "How far the ratings move with their inputs",
 "If both edge responses are right within a factor k and the ground sample distance within a factor j, the GIQE 5 rating is right within (3.32 + 8 M^3) log10 k + 3.32 log10 j + (6.308 M + 1.8) |1/s - 1/s'|, M bounding the logarithm of the mean edge response and s, s' the signal-to-noise ratios; the GIQE 3 rating within 3.32 (log10 k + log10 j) plus 1.48 times the change of overshoot plus the change of gain over signal-to-noise ratio; the GIQE 4 rating within 2.817 log10 k + 3.32 log10 j + 0.656 times the change of overshoot + 0.334 times the change of gain over signal-to-noise ratio while both edge responses lie on one side of 0.9, and across 0.9 within 0.16 |log10| of the ground-plane distance in inches + 1.258 log10(10/9) more. relative_edge_response is right within a factor k once the share of the slope that n samples may lose is at most 1 - 1/k and a pixel is at most half a period of the last frequency. Together: the rating niirs5 returns is the rating of the exact edge responses of camera and atmosphere up to (3.32 + 8 M^3) log10 k.",
 "all edge responses, distances, signal-to-noise ratios, transfer functions, cameras, scenarios and atmospheres that meet the sampling condition",
 "a bound on the difference of two ratings for all pairs of inputs; the exact edge response is an integral that no test evaluates",
 [M+":giqe5", M+":giqe3", M+":giqe4", M+":relative_edge_response", M+":niirs5"])
prop("C134", "Which columns of the atmosphere are used",
 "total_radiance and giqe_radiance of a loaded atmosphere give, in row i, path emission (column 2) plus scattered sunlight (column 4) plus (1 - r) times the blackbody curve at the wavelength of column 0 times the transmission of column 1 plus r/0.15 times the reflected sunlight of column 5; the path radiance of niirs and niirs5 is column 2 plus column 4; the rows they keep are exactly those with lo <= wavelength <= hi. The surface emission of column 3 has no influence: atmospheres that differ in it only give the same results, or the same exceptions, in niirs, niirs5, reflectance_to_photoelectrons and simulate_image.",
 "all atmospheres of 1371 rows with non-zero wavelengths, reflectances, temperatures, cameras, scenarios",
 "independence of a column for all contents; a swapped column changes numbers but raises nothing",
 ["src/pybsm/radiance/functional.py:total_radiance", "src/pybsm/radiance/functional.py:giqe_radiance", "src/pybsm/radiance/functional.py:reflectance_to_photoelectrons", M+":niirs", M+":niirs5", I+":simulate_image"])
prop("C135", "Cameras that see no wavelength of the atmosphere",
 "A sensor without optics wavelengths makes niirs, niirs5, reflectance_to_photoelectrons and simulate_image raise IndexError before anything is written. A sensor whose band holds no wavelength of the atmosphere makes niirs, niirs5 and simulate_image raise ValueError; by then niirs and niirs5 have overwritten the reflectances (and for thermal bands the temperature) of the caller's scenario, but not the kernel of the sensor. With the database this happens exactly for bands that end below 0.3 micrometres, begin above 14 micrometres, or lie strictly between two neighbouring samples 10 nm apart, such as 551 to 559 nm.",
 "all sensors with optics and efficiency tables of equal lengths and non-zero aperture, all atmospheres of 1371 rows, all scenarios",
 "the tests use wide bands; the condition on the band is an equivalence over all real end points",
 ["src/pybsm/radiance/functional.py:reflectance_to_photoelectrons", M+":niirs", M+":niirs5", I+":simulate_image"])
prop("C136", "Sensors that no analysis accepts",
 "If the transmission table does not have the length of its wavelengths, or the efficiency table is empty or does not have the length of its wavelengths (as after assigning qe without qe_wavelengths), niirs, niirs5, reflectance_to_photoelectrons and simulate_image raise ValueError for every atmosphere; with sound tables and an aperture of diameter zero they raise ZeroDivisionError. When niirs and niirs5 raise, the reflectances of the caller's scenario (and its temperature for bands from 2.9 micrometres on) have already been overwritten, while the sensor still has its kernel. With a focal length of zero and everything else sound, niirs and niirs5 raise ZeroDivisionError too, and by then niirs5 has replaced the sharpening kernel.",
 "all sensors with at least one optics wavelength, all atmospheres, scenarios and times; for the focal length: sensors with sound tables, atmospheres in which they respond somewhere, altitudes above 0",
 "the exceptions hold for every atmosphere and scenario; no test assigns tables of unequal length",
 ["src/pybsm/radiance/functional.py:resample_by_wavelength", "src/pybsm/radiance/functional.py:photon_detector_SNR", "src/pybsm/radiance/functional.py:reflectance_to_photoelectrons", M+":niirs", M+":niirs5", I+":simulate_image"])
prop("C137", "Parameters of sensors and scenarios that are ignored",
 "The sensor parameter other_irradiance, documented as irradiance of the focal plane from other sources such as stray light, changes nothing: niirs, niirs5, reflectance_to_photoelectrons and simulate_image give the same results for every value of it, so the irradiance they count beside the scene does not contain it (refuted). The catch-all other_noise, frame_stacks and max_well_fill change neither reflectance_to_photoelectrons nor the pictures of simulate_image. The reflectances and temperatures of target and background in the scenario change no metric of niirs and niirs5 and no picture of simulate_image.",
 "all sensors, scenarios, atmospheres, reference images, random draws and values of the parameters",
 "independence of a parameter quantifies over all its values and all other inputs; the tests only check that the parameters are stored",
 ["src/pybsm/simulation/sensor.py:Sensor", "src/pybsm/radiance/functional.py:photon_detector_SNR", "src/pybsm/radiance/functional.py:reflectance_to_photoelectrons", M+":niirs", M+":niirs5", I+":simulate_image"])
