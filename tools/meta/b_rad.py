F = "src/pybsm/radiance/functional.py"
prop("C23", "Blackbody radiance is positive, finite and strictly increasing with temperature",
 "For positive wavelength and temperature blackbody_radiance is a positive finite number, strictly increasing in temperature at every wavelength.",
 "all wavelengths > 0 and temperatures > 0",
 "monotonicity over a continuum",
 [F+":blackbody_radiance"])
prop("C24", "Blackbody radiance obeys Wien's scaling law and the Rayleigh-Jeans bound",
 "B(lambda/k, k*T) = k^5 B(lambda, T) for every k>0, B <= 2*c*k_B*T/lambda^4, and T=0 gives exactly 0 (no NaN).",
 "all wavelengths, temperatures, scale factors",
 "functional equation over a continuum",
 [F+":blackbody_radiance"])
prop("C25", "Radiance to irradiance conversion",
 "at_focal_plane_irradiance is linear in L, positive homogeneous, bounded by pi*L, strictly decreasing in |f/D|, depends only on f/D, and raises ZeroDivisionError exactly for D = 0.",
 "all D, f and radiance arrays",
 "universally quantified linearity and bounds",
 [F+":at_focal_plane_irradiance"])
prop("C26", "Isothermal camera interior radiates a full hemisphere",
 "If the cold shield and a unit-emissivity cold stop have the same temperature T, the sum of cold_shield_self_emission and cold_stop_self_emission is exactly pi*B(lambda,T), independent of D and f (Kirchhoff).",
 "all D, f, T and wavelength arrays",
 "an identity over all optics",
 [F+":cold_shield_self_emission", F+":cold_stop_self_emission"])
prop("C27", "Photon detection rate counts photons",
 "photon_detection_rate(E,...) times photon energy hc/lambda equals qe * area * E elementwise; it is linear in E and qe; arrays whose lengths cannot be broadcast raise ValueError.",
 "all arrays",
 "all array lengths and values",
 [F+":photon_detection_rate"])
prop("C28", "Wavelength resampling",
 "resample_by_wavelength reproduces the samples at the given wavelengths, is 0 outside their range, never exceeds the range of the values together with 0, keeps non-negativity, and returns one value per new wavelength; mismatched lengths or an empty table raise ValueError.",
 "all strictly increasing tables and all query points",
 "bounds over all tables and queries",
 [F+":resample_by_wavelength"])
prop("C29", "Total radiance is an affine mix of emission and reflection",
 "total_radiance is affine in reflectance; at the database reflectance 0.15 the solar term is exactly the stored ground-reflected term; it is increasing in temperature for reflectance < 1 and independent of temperature for reflectance = 1; the surface-emission column is never used.",
 "all atmospheres, reflectances, temperatures",
 "statement over all atmosphere tables",
 [F+":total_radiance"])
prop("C30", "GIQE target is brighter than background in emissive mode",
 "With is_emissive the target radiance (282 K) is at least the background radiance (280 K) at every wavelength with non-negative transmission, strictly where transmission is positive; is_emissive ignores the solar column; any non-zero flag counts as emissive.",
 "all atmospheres with positive wavelengths",
 "all atmosphere tables",
 [F+":giqe_radiance"])
prop("C31", "Signal rate",
 "signal_rate is affine in target radiance, never below dark current for non-negative inputs, monotone in radiance, optical transmission, qe and other irradiance, and the returned rate is dark current plus the trapezoidal integral of the returned spectral rate.",
 "all arrays of equal length with increasing wavelengths",
 "monotonicity over arrays of any length",
 [F+":signal_rate"])
prop("C32", "check_well_fill limits the charge to the well",
 "check_well_fill(n, m) returns a factor s in (0,1] with s*n <= m for every m > 0 (s = 1 when n <= m, s*n = m otherwise).",
 "all counts and limits",
 "all real inputs",
 [F+":check_well_fill"])
prop("C33", "SNR calculation never overfills the well",
 "For every sensor and scene, the well_fraction reported by photon_detector_SNR is at most max_well_fill, and the reported integration time never exceeds the requested one.",
 "all sensors with positive well and all radiance pairs",
 "all sensors/scenes",
 [F+":photon_detector_SNR", F+":check_well_fill"])
prop("C34", "Swapping target and background flips the sign of SNR",
 "photon_detector_SNR(sensor, w, a, b).snr = -photon_detector_SNR(sensor, w, b, a).snr while total noise, well fraction and integration time are unchanged; equal radiances give SNR 0.",
 "all sensors and radiance pairs",
 "symmetry over all inputs",
 [F+":photon_detector_SNR"])
prop("C35", "Noise budget",
 "total_noise^2 is the sum of signal, quantization, read and other noise variances; total noise is at least each component; dark-current noise plus self-emission noise plus scene noise variances do not exceed the signal variance.",
 "all sensors and scenes with non-negative parameters",
 "all inputs",
 [F+":photon_detector_SNR"])
prop("C36", "Longer integration never hurts an unsaturated detector",
 "While the well limit is not reached, |SNR| is non-decreasing in integration time and in the number of TDI stages.",
 "all sensors and scenes",
 "monotonicity over all inputs",
 [F+":photon_detector_SNR"])
prop("C37", "Photoelectron curve stays within the well",
 "reflectance_to_photoelectrons returns 100 reflectances from 0 to 1 in equal steps and photoelectron counts each at most max_n (and non-negative for non-negative inputs); when the scene would overexpose, the largest count is exactly max_n and the shape of the curve is unchanged.",
 "all sensors with max_n > 0 and all atmospheres with an in-band sample",
 "all sensors/atmospheres",
 [F+":reflectance_to_photoelectrons"])
prop("C38", "Photoelectron curve is affine in reflectance",
 "The 100 photoelectron counts lie on a straight line in reflectance, so they increase iff the solar term exceeds the 300 K emission term, and interpolating them is exact.",
 "all sensors and atmospheres",
 "all 100 points for all inputs",
 [F+":reflectance_to_photoelectrons", F+":total_radiance"])
prop("C39", "Spectral weights are normalised",
 "The second row of spectral_weights is at most 1 everywhere and equals 1 somewhere when any signal is detected.",
 "all sensors and atmospheres with a positive detected signal",
 "all inputs",
 [F+":reflectance_to_photoelectrons"])
prop("C40", "target_temp argument has no effect",
 "reflectance_to_photoelectrons documents a target_temp argument, but the result is the same for every value of it (300 K is hard-coded): the claim that the photoelectron count depends on the target temperature as documented is false.",
 "all target temperatures",
 "an argument being ignored is a statement about all pairs of values",
 [F+":reflectance_to_photoelectrons"])
prop("C102", "Band integrated focal-plane irradiance",
 "focal_plane_integrated_irradiance is the cone factor pi/(1+4(f/D)^2) times (t_opt L + e_opt B(lambda0,T) dlambda + L_s) elementwise; for a dark scene without stray light only the emission of the optics times the bandwidth remains, as optics_self_emission gives it; a zero aperture raises ZeroDivisionError.",
 "all optics and radiance arrays of equal length, wavelengths nonzero",
 "identity over arrays of any length",
 [F+":focal_plane_integrated_irradiance"])
prop("C126", "Peak and area of the blackbody curve",
 "At every positive temperature the curve computed by blackbody_radiance rises strictly with the wavelength while lambda T <= 2.89777e-3 m K and falls strictly once lambda T >= 2.89778e-3 m K (Wien's displacement law); its integral over all wavelengths converges to sigma T^4 / pi with sigma between 5.6703e-8 and 5.6704e-8 W/(m^2 K^4) (Stefan-Boltzmann); at 300 K the band of the database, 0.3 to 14 micrometres, carries between 51 and 52 percent of it.",
 "all positive temperatures, all pairs of positive wavelengths",
 "an improper integral and monotonicity over a continuum",
 [F+":blackbody_radiance", U+":load_database_atmosphere_no_interp"])
prop("C127", "Photoelectron rate in double precision",
 "In double precision blackbody_radiance, total_radiance and signal_rate are within a relative 10^-12 of the exact values: for wavelengths from 0.1 to 100 micrometres with lambda T between 6e-5 and 0.019 m K (0.3 to 14 micrometres at 200 to 1357 K), up to 2000 wavelengths, radiances, transmissions and efficiencies that are 0 or between 10^-12 and 10^12, whatever the order in which np.sum adds, and whatever np.exp and ** do within four units in the last place. For lambda T <= 2e-5 m K (66 K at 0.3 micrometres) the exponential overflows and the computed radiance is exactly 0 instead of a tiny positive number.",
 "all binary64 inputs of that size, all summation orders, all accurate exp and power functions",
 "tests compare with tolerances at single points and depend on the library in use",
 [F+":blackbody_radiance", F+":total_radiance", F+":at_focal_plane_irradiance", F+":photon_detection_rate", F+":signal_rate"])
prop("C128", "Sampling of thermal emission",
 "For a black target of temperature T seen through optics of flat transmission with a detector of flat quantum efficiency, plus the emission of the camera itself, the photoelectron rate that signal_rate obtains with the trapezoidal rule from samples at most h apart, all wavelengths at least m and all emitters at least T0 (or at absolute zero), differs from the exact integral over the band by at most ((hc/(k m T0) + 5) h/m)^2/8 of that integral. With the 10 nm spacing of the database and nothing colder than 70 K that is 0.8 percent from 3 micrometres and 0.02 percent from 8 micrometres on. While lambda T <= 1.987e-3 m K for the largest wavelength and every temperature, the sampled rate is never below the exact one.",
 "all physical sensors, temperatures, ascending wavelength lists of any length, flat responses",
 "the exact value is an integral over a continuum of wavelengths that no test computes",
 [F+":signal_rate", F+":blackbody_radiance", F+":cold_shield_self_emission", F+":optics_self_emission", F+":cold_stop_self_emission"])
