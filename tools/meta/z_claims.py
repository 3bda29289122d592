# status and note per property; theorem names are collected from Prop_*.v
claim("C05", "proved", "finding: the elevation angle fed to the image-quality equations is larger than the elevation angle at the target by ground_range/r_earth (C05_elevation_at_target_refuted)")
claim("C07", "proved", "finding: noise_gain rejects the kernel [-0.08, 1.16, -0.08] (and others) because of binary64 rounding; the natural claim is refuted")
claim("C14", "proved", "finding: the interpolation grid lists 32.55 m but the database stores 0.0325 km; every altitude in (2, 75) m raises IndexError and the documented altitude 32.55 m is never available without interpolation (natural claim refuted, exact success set proved)")
claim("C19", "proved", "finding: the array returned by Scenario.atm is the cache itself, so in-place edits by the caller leak into later reads (natural claim refuted)")
claim("C20", "proved", "finding: an omitted w_y gets the reciprocal of the documented fill factor, so a partial fill in x yields a detector wider than its pitch in y")
claim("C22", "proved", "Findings: the scenario returned for the default altitude has no database atmosphere (IndexError); the estimated camera is undersampled by simulate_image's own guide (C22_baseline_undersampled).")
claim("C32", "proved", "exact arithmetic: proved. finding: in binary64 max_fill/total*total can exceed max_fill (25 electrons, limit 7)")
claim("C36", "proved", "proved without the unsaturated restriction: |SNR| never decreases with exposure and is constant once the well is full")
claim("C39", "proved", "weights come from the last loop iteration (reflectance 1), so they exclude the target's own emission; with no signal at reflectance 1 they are NaN, not an error")
claim("C40", "proved", "finding: the target_temp argument is ignored, 300 K is hard-coded; the documented reading is refuted with a thermal-camera witness")
claim("C53", "proved", "finding: the natural claim is refuted; for the two-tap mean filter the value at zero frequency is (1+cos(pi/100))/2 for every triangulation, and the sum of the kernel is found at Nyquist/99")
claim("C60", "proved", "finding: duplicate wavelengths raise ValueError or silently break the average; one wavelength with several weights is silently scaled by w0/sum(w)")
claim("C64", "proved", "the product structure is proved with and without a filter kernel; the value at zero frequency and the bounds are for the case without one (see C53 for why a filter breaks them). Finding: for bands of more than three octaves the short-exposure turbulence formula, beyond eight times the cutoff of the longer wavelength, is unbounded and so is its weighted mean (C64_wider_bands_refuted).")
claim("C67", "proved", "The full statement is refuted; the first-quadrant case and what is returned at every other angle are proved.")
claim("C70", "proved", "Even sizes proved; refuted for odd sizes, where the exact effect (frequencies off by one, a cosine factor on the kernel of a real system) is proved.")
claim("C71", "proved", "Proved when the array is large enough; the statement for every size is refuted and the off-centre crop characterised.")
claim("C72", "proved", "The ZeroDivisionError is proved for Python spacings; numpy spacings of zero raise OverflowError, also proved.")
claim("C79", "proved", "finding: monotone in everything but RER; at RER 0.9 the rating drops whenever the ground-plane GSD is above 2.291 inches (refuted), and does not when it is below 2.289 inches; finding: coefficient 0.334 of G/SNR where the published equation has 0.344 (the constant is from the literature, the repository holds no copy of the paper)")
claim("C81", "proved", "finding: in infrared the second assignment writes target_temperature = 280 again instead of background_temperature; the documented state is refuted and the actual state proved")
claim("C82", "proved", "finding: order independence refuted; niirs after niirs5 always has noise gain 1, and a kernel that niirs rejects is accepted after niirs5")
claim("C85", "proved", "finding: for a target darker than its background the snr is negative, and stacking frames lowers the GIQE 3, 4 and 5 ratings; the GIQE 5 theorem asks for an edge response of at most 1.9 (bright target) or 1 (dark target)")
claim("C87", "proved", "finding: the docstring's ValueError for fewer than two calibration points does not happen (NaN image instead); repeated pixel values give NaN")
claim("C88", "proved", "the success theorem needs a point spread function without negative values; C96 shows that a negative blurred pixel makes the function raise; C98 is a class where everything is discharged")
claim("C90", "proved", "finding: a constant image has no 8-bit value (0/0)")
claim("C93", "proved", "refuted that both ranges agree: altitude 2000 m, ground range 1000 m")
claim("C96", "proved", "findings: three classes of inputs for which simulate_image cannot produce an image; NonFinite marks NaN that reaches the Poisson draw")
claim("C97", "proved", "finding: the PSF carries a one-period cosine (consequence of C70 for the fixed odd size 1501)")
claim("C101", "proved", "")
claim("C102", "proved", "")
claim("C103", "proved", "finding: the series closes a parenthesis late (sin(2 beta (J1 - J3)) instead of sin(2 beta) (J1 - J3)) and its prefactor is 2/(pi alpha) instead of 4/(pi alpha), so the function is not the diffraction OTF of a defocused pupil")
claim("C104", "proved", "finding: filter2D correlates, so the phase of a complex OTF (tdi_OTF, filter_OTF of an asymmetric kernel) acts in the wrong direction; equality holds for symmetric kernels of odd size")
claim("C105", "proved", "")
claim("C106", "proved", "finding: every call ends in an exception (misspelt keyword arguments of annotate); the list of keywords that matplotlib knows is part of the trusted base")
claim("C107", "proved", "findings: the README announces a nadir look from 500 km, but the table stores 550 km (500 km raises IndexError); a target in sight between grid points can be rejected because the far corner of its cell lies behind the horizon (2500 m, 159 km)")
claim("C108", "proved", "finding: for a camera whose optics pass light below 2.9 microns but whose detector works at 8-12 microns, the standard target is darker than the background at night; the SNR is negative and then more noise never lowers a rating")
claim("C109", "proved", "")
claim("C112", "proved", "Pixel values are real numbers: an image whose remapped values would be clipped or rounded by its integer type is outside the statement. The complement of the blurred image is stated inside the frame and for cameras, scenes and geometries on which the simulation is meant to work; nothing is said about the noisy image of a negative, whose shot noise follows another signal")
claim("C111", "proved", "niirs is stated for cameras without a sharpening mask (at most one row); niirs5 drops the mask anyway. That the GIQE 5 rating does not depend on the orientation is refuted for unequal pitches (C111_orientation_refuted): niirs5 uses gsd_x only, as a comment in the source admits (GIQE5 assumes all square detectors), but nothing checks it")
claim("C110", "proved", "Finding: the claim that nadir_angle never returns nan when looking straight down is refuted in binary64 (C110_never_nan_refuted). From 40 percent of the decimetre altitudes, 2000 ft among them, the argument of np.arccos exceeds one by rounding and niirs/niirs5 (interp=True) silently return nan; simulate_image with interp=True has the same failure at other altitudes. Whole metres are exact (C110_eighths_exact). np.cos and np.arccos enter only through np.cos(0) = 1 and np.arccos(x) = nan for x > 1.")
claim("C113", "proved", "finding: the target and background attributes of a scenario influence none of the three functions (documented for the niirs models, which override them; not documented for simulate_image, which never reads them); finding (C113_replay_refuted): order independence without the condition on the sharpening filter is false, because niirs5 overwrites the filter of the caller's sensor, which also changes later pictures")
claim("C114", "proved", "Stated for cameras without a sharpening mask (at most one row): with a mask the mask would have to be transposed too, and filter_OTF takes p_x for both axes.")
claim("C115", "proved", "Finding: that otf_to_psf keeps its size when asked for its own spacing is refuted in binary64 (C115_psf_own_refuted): it cuts the quotient with int() where resample_2D rounds, so for 61 of the frequency spacings 1..1000 a 1501 x 1501 function comes back with 1500 samples a side and is interpolated needlessly; never for powers of two (C115_psf_power_f64). The binary64 statements cover the size computations; the statement about simulate_image is about real numbers.")
claim("C116", "proved", "Findings. That perfect optics (transfer function one everywhere) leave the picture alone is refuted (C116_undisplaced_refuted). A frame one pixel narrower than it has samples, which C115 shows rounding can produce, averages every pixel with its neighbours above and to the left (C116_half_pixel). Frames of 5, 7 and 9 pixels displace the picture by one or two whole pixels, because get_middle wraps around when the crop is larger than the array (C116_few_pixels). Real numbers; the true image stands for the reference image turned into photoelectrons. C116_baseline speaks of runs that return pictures; its example shows the other hypotheses for a concrete camera and atmosphere, since the sum of the 131 x 131 point spread function has not been bounded away from zero for it.")
claim("C117", "proved", "Finding: that interpolation keeps the wavelength column (C13, true in exact arithmetic) is refuted in binary64 (C117_wavelength_kept_refuted): the two weighted wavelengths do not add up to the wavelength, from 1200 m 456 of the 1371 samples change in the last place. The conversion of the radiances from single precision is not modelled; the files hold arbitrary binary64 numbers. C117_lookup_tiny: a range too small to survive the division by 1000 counts as zero.")
claim("C118", "proved", "Findings, both last sentences of the statement are refuted in binary64 (C118_first_mark_refuted, C118_band_fixed_refuted). A band that begins at a mark loses its first sample for 321 of the 1371 marks, one that ends at a mark its last for 189; the 380-700 nm camera of ref_image.py lacks 380 nm. With interpolation the band depends on the altitude: at 98 of the 926 whole metres between 75 m and 1 km the 500-660 nm camera of the example script loses its sample at 660 nm, one of 16 intervals of the integral. A camera from 1e-6*2.9 m is treated as a reflective one (C118_emissive_refuted).")
claim("C13", "proved", "exact arithmetic; in binary64 the column changes in the last places (C117_wavelength_kept_refuted), which changes the samples of a band (C118)")
claim("C119", "proved", "get_middle keeps one sample more than asked when the sizes differ by an odd number, and from an array smaller than the window it keeps the last samples only (first_kept, kept); the zero frequency position of odd sizes is the one C70 reports")
claim("C120", "proved", "sequences of random numbers are arbitrary functions of rate and pixel")
claim("C80", "proved", "finding: one negative edge response is squared away")
claim("C121", "proved", "ratings as numbers need positive edge responses and a contrast, which C95_niirs_rated and C109 give for oversampled cameras")
claim("C122", "proved", "Finding: the first sentence is refuted for odd sizes (C122_edge_left_out_refuted): 535 of the 1000 odd sizes from 3 to 2001 give a sample too many, among them 1501, the size simulate_image uses, and 7, 11, 13, 15. The ratings are not affected (C122_rating_size). The interpolation itself is in exact arithmetic (C66).")
claim("C123", "proved", "Finding: that the computed OTF is the exact one up to rounding, which the property would be without its exception, is refuted (C123_example_configuration_refuted, C123_symmetry_refuted, C123_negative_refuted). The grids are those of the shortest wavelength of the band; other wavelengths of a band enter the weighted sum with their own points. The library functions are parameters with a contract (good_libm), met by correctly rounded ones (Proof_F64Libm).")
claim("C124", "proved", "Finding (documentation): the 5 cm hold for a telescope on the ground; for the direction in which polychromatic_turbulence_OTF calls these functions the value is a hundred times larger (C124_seen_from_above). The vertical path is the code's own (altitude_along_slant_path); the isoplanatic angle is not computed by the code, its formula is part of the statement. Real arithmetic.")
claim("C125", "proved", "Finding (tests): test_scenario.py:159 passes interp as the fifth positional argument, the aircraft speed (C125_fifth_argument); its seven assertions hold, and the four meant for interpolation hold with interp=True as well (Num_TestDb). Types are not checked by Python: a flag in a number's place counts as 1 or 0.")
claim("C126", "proved", "real arithmetic; the constants are the code's own (hc, cc, kc); the improper integral is Coquelicot's is_RInt_gen; the numerical integrals are evaluated by the Interval library, whose results the kernel checks")
claim("C127", "proved", "np.exp, ** and the order of np.sum are parameters with contracts (good_exp, good_pow, good_sum), met by correctly rounded functions and by a left-to-right loop (C127_libm); the interpolation of transmission and quantum efficiency to the wavelengths is not part of it: signal_rate receives them as arrays")
claim("C128", "proved", "real arithmetic (C127 bounds the rounding); the radiance of the target is that of a blackbody without atmosphere: the tabulated atmosphere has no values between the samples to compare with; flat transmission and efficiency")
claim("C129", "proved", "Finding (documentation): the IndexError documented for an empty grid is refuted (C129_empty_grid_refuted), and the documented ZeroDivisionError does not occur without turbulence or for a numpy range (C129_zero_range, C129_success). A filter kernel of several rows is left out: its functions evaluate scalars before looking at the grid, which the row-wise model does not show for an empty grid.")
claim("C130", "proved", "Finding (documentation): the warnings for turbulence_OTF ('nan if lambda0 and alpha are 0'), wavefront_OTF ('nan if lambda0 is 0') and coherence_diameter ('will FAIL if you give it a two-element path') describe inputs that give ordinary numbers; the warning for circular_aperture_OTF omits the infinity at zero frequency. Real numbers extended by infinities and nan: overflow to infinity is not part of it, and neither is rounding: for eta 1 below the cutoff the numerator is 0 in exact arithmetic only, a rounding residue there gives +-inf instead of nan (beyond the cutoff it is exactly 0 in both).")
claim("C131", "proved", "Finding: that 50 samples give the relative edge response to within 0.4 for every pixel size is refuted (C131_any_pixel_refuted; pixels of two periods of the frequency step). Real arithmetic; the shift of the frequencies by 1e-6 cycles per radian is part of the error bound; the sample at the cutoff itself, which slice_otf leaves out, is 0. For edges that change by less than 2 e between two places only that the overshoot is one of the nine images is shown.")
claim("C132", "proved", "real arithmetic; with turbulence the wavelengths that give photoelectrons differ by at most a factor of four (the turbulence factor is not bounded by 1 far beyond the cutoff of a wavelength) and the aircraft speed is not negative; niirs with a kernel of one row evaluates the same sums (C121)")
claim("C133", "proved", "real arithmetic; the signal-to-noise ratio and ground sample distance of niirs5 are kept in the comparison, only the edge responses are replaced by exact ones")
claim("C134", "proved", "real arithmetic; simulate_image from the loaded atmosphere on (simulate_rest of Model_Sim: loading and caching are C16 and C17)")
claim("C135", "proved", "finding: narrow bands between two samples of the database raise ValueError after the scenario has been changed")
claim("C136", "proved", "simulate_image from the loaded atmosphere on (simulate_rest of Model_Sim: loading and caching are C16 and C100)")
claim("C137", "proved", "finding: C137_documented_refuted; niirs5 still hands back the stray light in the sensor it has changed")
