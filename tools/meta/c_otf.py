O = "src/pybsm/otf/functional.py"
prop("C41", "Circular aperture OTF is a proper MTF and never NaN",
 "For an unobscured aperture of positive diameter circular_aperture_OTF is a finite number in [0,1] at every frequency, 1 at zero frequency, 0 at and beyond the cutoff D/lambda, even in u and v, rotationally symmetric and non-increasing in radius.",
 "all frequencies, diameters and wavelengths",
 "arccos/sqrt are undefined outside the cutoff; the NaN replacement must be right for every frequency",
 [O+":circular_aperture_OTF"])
prop("C42", "Unobscured aperture OTF is the autocorrelation of the pupil",
 "Inside the cutoff the OTF equals the normalised overlap area of two unit discs whose centres are 2*rho*lambda/D apart, computed as an integral.",
 "all frequencies",
 "identity with an integral",
 [O+":circular_aperture_OTF"])
prop("C43", "Obscured aperture OTF",
 "For 0 < eta < 1 the OTF is the normalised overlap area of two annuli: 1 at zero frequency, in [0,1] everywhere, 0 at and beyond the cutoff, and never NaN, including at the two region boundaries.",
 "all frequencies and obscurations",
 "three formula regions glued by NaN replacement and strict/non-strict comparisons",
 [O+":circular_aperture_OTF"])
prop("C44", "Zero defocus reduces to the ideal aperture",
 "circular_aperture_OTF_with_defocus(u,v,lambda,D,f,0) equals circular_aperture_OTF(u,v,lambda,D,0) at every frequency.",
 "all frequencies, wavelengths, diameters, focal lengths",
 "identity of two different formulas over all frequencies",
 [O+":circular_aperture_OTF_with_defocus", O+":circular_aperture_OTF"])
prop("C45", "Defocused aperture OTF is finite, 1 at zero frequency and 0 beyond cutoff",
 "For every defocus, circular_aperture_OTF_with_defocus returns a finite number everywhere, exactly 1 at zero frequency, exactly 0 beyond the cutoff, and tends to the ideal aperture OTF as defocus tends to 0.",
 "all frequencies and defocus values",
 "limit statement",
 [O+":circular_aperture_OTF_with_defocus"])
prop("C46", "Charge-transfer OTF",
 "cte_OTF is in (0,1] for efficiency <= 1 and non-negative transfer counts, 1 at zero frequency, 1 everywhere for perfect efficiency, periodic in frequency with period f/pitch, and the OTF of n1+n2 transfers is the product of the OTFs.",
 "all parameters and frequencies",
 "identities over a continuum",
 [O+":cte_OTF"])
prop("C47", "Jitter OTF is that of a Gaussian with the stated RMS",
 "jitter_OTF is in (0,1], 1 at zero frequency, even, decreasing in |u|; two independent jitters combine by root-sum-square (product of OTFs); and minus its second derivative at 0 divided by 4 pi^2 is s_x^2.",
 "all frequencies and RMS values",
 "functional equation and derivative",
 [O+":jitter_OTF"])
prop("C48", "Detector OTF is the Fourier transform of the pixel",
 "detector_OTF(u,v) equals the integral of cos(2 pi u x) over the normalised rectangular pixel (times the same for v); |H| <= 1, H=1 at zero, H=0 at multiples of f/w_x.",
 "all frequencies and pixel sizes",
 "identity with an integral",
 [O+":detector_OTF"])
prop("C49", "Detector aggregation",
 "detector_OTF_with_aggregation with n=1 is detector_OTF; aggregating n contiguous full-fill pixels equals a single detector n times as wide; |H| <= 1; n = 0 does not return a number.",
 "all n, frequencies, sizes",
 "identity for every n (induction)",
 [O+":detector_OTF_with_aggregation", O+":detector_OTF"])
prop("C50", "Diffusion OTF",
 "diffusion_OTF is 1 at zero frequency, in (0,1] everywhere and non-increasing in radial frequency, for positive absorption, depletion width and diffusion length.",
 "all parameters and frequencies",
 "monotonicity",
 [O+":diffusion_OTF"])
prop("C51", "Drift OTF",
 "drift_OTF is the Fourier transform of a uniform smear of the given extents; |H| <= 1; no drift gives 1 everywhere; it vanishes at 1/a_x.",
 "all frequencies and drifts",
 "identity with an integral",
 [O+":drift_OTF"])
prop("C52", "Filter OTF is bounded and periodic",
 "For any kernel, filter_OTF is between 0 and the largest magnitude of the kernel's discrete transform, at most sum|k|, and periodic in both frequencies with period 1/ifov; ifov = 0 raises ZeroDivisionError. Everywhere its value is the linear interpolation, over the triangle picked, in a 100 x 100 table of the kernel's response whose first and last columns (and rows) are taken to be half a cycle per pixel either way, at the frequency folded into that range.",
 "all kernels, frequencies, whichever triangulation the interpolator picks",
 "nondeterministic triangulation and all kernels",
 [O+":filter_OTF"])
prop("C53", "Filter OTF at zero frequency",
 "A kernel that sums to one should have OTF 1 at zero frequency. FALSE: coordinates run from -Nyquist to +Nyquist over 100 samples, so the DC sample sits at Nyquist/99; a witness kernel gives a value different from 1.",
 "all kernels summing to one",
 "witness requires evaluating the transform off-grid",
 [O+":filter_OTF"])
prop("C54", "Gaussian and geometric-defocus OTFs",
 "gaussian_OTF and defocus_OTF are in (0,1], 1 at zero frequency, even and decreasing; gaussian_OTF at the quoted cutoff 1/blur_size is exactly exp(-pi) (about 0.043, as documented); blur_size 0 raises ZeroDivisionError.",
 "all frequencies and blur sizes",
 "numeric enclosure and monotonicity",
 [O+":gaussian_OTF", O+":defocus_OTF"])
prop("C55", "Turbulence OTF",
 "turbulence_OTF is in (0,1] inside the optical cutoff for 0<=alpha<=1, 1 at zero frequency; the short-exposure OTF is at least the long-exposure OTF; the long-exposure OTF is in (0,1] at all frequencies; beyond the cutoff the short-exposure OTF can exceed 1.",
 "all frequencies, wavelengths, r0, D",
 "monotonicity and a counterexample region",
 [O+":turbulence_OTF"])
prop("C56", "Wind-speed turbulence interpolates between short and long exposure",
 "wind_speed_turbulence_OTF lies between the long- and short-exposure OTFs, is the short-exposure OTF when vel*t_d = 0, and is non-increasing in vel*t_d.",
 "all parameters",
 "all parameters",
 [O+":wind_speed_turbulence_OTF", O+":turbulence_OTF"])
prop("C57", "Time-delay-integration OTF",
 "tdi_OTF has |H| <= 1, equals sinc(w u/f) when the velocity mismatch beta is 1, and is 1 at zero frequency, for a positive whole number of TDI steps; with a non-integer number of steps the zero-frequency value exceeds 1.",
 "all frequencies and step counts",
 "induction over the number of stages",
 [O+":tdi_OTF"])
prop("C58", "Wavefront OTFs",
 "wavefront_OTF is in [exp(-pv),1], 1 at zero frequency and for pv=0; wavefront_OTF_2 is 1 at zero frequency and at the cutoff, in [1-(w/0.18)^2, 1] within the cutoff, and exceeds 1 beyond it.",
 "all frequencies",
 "bounds over a continuum",
 [O+":wavefront_OTF", O+":wavefront_OTF_2"])
prop("C59", "Spectral weighting is a weighted average",
 "For distinct wavelengths and equally many non-negative weights with positive sum, weighted_by_wavelength returns sum(w_i f(l_i))/sum(w_i), hence stays within the range of f, is unchanged by rescaling the weights, and is 1 where every f(l_i) is 1.",
 "all lists of wavelengths and weights, all functions",
 "lists of any length and arbitrary functions",
 [O+":weighted_by_wavelength"])
prop("C60", "Duplicate wavelengths break the average",
 "The weighted average property fails (or raises) when a wavelength occurs twice, and when more weights than wavelengths are supplied.",
 "lists with duplicates",
 "depends on list structure",
 [O+":weighted_by_wavelength"])
prop("C61", "Coherence diameter scaling and monotonicity",
 "coherence_diameter scales as lambda^(6/5), decreases when cn2 increases anywhere along the path, scales as cn2^(-3/5), is positive for positive integral and infinite when there is no turbulence.",
 "all paths, profiles and wavelengths",
 "integral over arbitrary profiles",
 [O+":coherence_diameter"])
prop("C62", "Hufnagel-Valley profile",
 "The profile is positive for non-negative parameters, equals 2.7e-16 + cn2_at_1m at h=0, is increasing in cn2_at_1m and in wind speed.",
 "all heights and parameters",
 "all inputs",
 [O+":hufnagel_valley_turbulence_profile"])
prop("C63", "Defocus radii and dark current conversions",
 "object_domain_defocus_radii is 0 exactly in focus and changes sign when object and focus ranges are swapped; image_domain_defocus_radii is linear in dz; dark_current_from_density times electron charge over area returns the density; zero ranges/focal lengths raise ZeroDivisionError.",
 "all inputs",
 "algebraic identities over all inputs",
 [O+":object_domain_defocus_radii", O+":image_domain_defocus_radii", O+":dark_current_from_density"])
prop("C64", "System OTF is the product of its components and is 1 at zero frequency",
 "common_OTFs returns system_OTF equal to the pointwise product of the seven component OTFs; at zero frequency it is exactly 1 when no filter kernel is used; within the cutoff its magnitude never exceeds any component, and for a band of at most three octaves it never exceeds one at any frequency. Three octaves is the exact limit: with two wavelengths further apart and any turbulent air no bound holds, not even for cameras built with all defaults.",
 "all sensors, scenarios, frequencies",
 "all configurations",
 [O+":common_OTFs"])
prop("C65", "Turbulence can be switched off",
 "If cn2_at_1m <= 0 the turbulence OTF is 1 everywhere and the result does not depend on slant range, altitude, wind speed or aircraft speed.",
 "all sensors and scenarios",
 "independence from all other inputs",
 [O+":common_OTFs"])
prop("C66", "OTF slice",
 "For an odd-sized square OTF, slice_otf at angle 0 returns the samples from the centre along +u and at pi/2 those along +v; the first sample is the zero-frequency value.",
 "all odd square arrays",
 "all sizes and contents",
 [O+":slice_otf"])
prop("C67", "OTF slice in the left half plane",
 "slice_otf 'rotates counterclockwise' for every angle. FALSE for angles with negative cosine: the interpolator sorts its query coordinates, so the returned samples are in reversed order for one axis.",
 "all angles",
 "interp2d's sorting is invisible for angles in the first quadrant",
 [O+":slice_otf"])
prop("C68", "Point spread function sums to one",
 "Whenever otf_to_psf returns a finite kernel its entries sum to exactly 1, so blurring preserves mean brightness.",
 "all OTF arrays and sample spacings",
 "all arrays",
 [O+":otf_to_psf"])
prop("C69", "otf_to_psf support search",
 "The returned kernel is the smallest of the tried central crops (10, 15, 20, ...) holding more than 95% of the energy, or the last tried one; for OTF arrays whose smaller side is at most 10 no crop is tried and UnboundLocalError is raised. A direct call with Python numbers answers as the call of apply_otf_to_image does, except that df = 0 or dx_out = 0 raises ZeroDivisionError.",
 "all array sizes",
 "loop over sizes; failure for all small arrays",
 [O+":otf_to_psf"])
prop("C70", "otf_to_psf centring for odd array sizes",
 "Using fftshift (instead of ifftshift) before the inverse transform: for even sizes the zero-frequency sample moves to index 0; for odd sizes (as in simulate_image, 1501) it moves to the last index, so the claim 'the spectrum is un-shifted before the inverse transform' is false for every odd size.",
 "all sizes",
 "parity-dependent, arrays of any size",
 [O+":otf_to_psf"])
prop("C71", "Central crop",
 "The crop used by otf_to_psf returns k or k+1 samples per axis (k when k and d have the same parity), centred, whenever the array is at least that large; for smaller arrays negative slice starts wrap around and the crop is wrong.",
 "all sizes d and k",
 "integer arithmetic over all sizes",
 [O+":otf_to_psf"])
prop("C72", "Resampled image size",
 "resample_2D returns an image whose sides are the input sides times dx_in/dx_out rounded half-to-even; dx_out = 0 raises ZeroDivisionError; sizes rounding to 0 raise cv2.error; equal spacings keep the size and the image.",
 "all sizes and spacings",
 "all sizes",
 [O+":resample_2D"])
prop("C73", "Blurring preserves uniform scenes and the value range",
 "Filtering with a normalised PSF (reflect-101 borders) leaves a constant image unchanged, is linear, and for non-negative PSFs keeps every pixel within the range of the input; bilinear resampling has the same three properties.",
 "all images, kernels, sizes",
 "all images and kernels",
 [O+":apply_otf_to_image", O+":resample_2D"])
prop("C74", "apply_otf_to_image on a uniform scene",
 "A uniform reference image of value c is mapped to a uniform image of value c, for every OTF for which a PSF exists; zero range or ifov raises ZeroDivisionError.",
 "all OTFs, sizes and geometries",
 "composition over all inputs",
 [O+":apply_otf_to_image"])
prop("C94", "Kernel resampling can abort the simulation",
 "apply_otf_to_image also resamples the kernel 'for health checks': whenever the kernel is narrower than half an output pixel the whole call raises cv2.error, although the picture itself could have been resampled.",
 "all scenes, OTFs and geometries with a small kernel on the output grid",
 "needs coarse output pixels; the failing step is unrelated to the returned picture",
 [O+":apply_otf_to_image", O+":resample_2D"])
prop("C103", "Defocused aperture against diffraction",
 "In focus the defocused-aperture OTF is the aperture's diffraction OTF (overlap of two shifted pupils). Out of focus it should be the overlap integral weighted by the defocus phase; it is not: with a quarter wave of defocus at half the cutoff frequency the function returns 0.184 for every lens, diffraction more than 0.287.",
 "all wavelengths, apertures, focal lengths, frequencies and defocus amounts",
 "the tests compare the function with its own earlier output; the reference value is an integral over the pupil",
 [O+":circular_aperture_OTF_with_defocus"])
prop("C104", "Complex transfer functions displace the picture the right way",
 "For a kernel symmetric about its centre the blur is the convolution of the (mirror-continued) picture with the kernel. For a complex OTF it should still be; it is not: apply_otf_to_image correlates (cv2.filter2D does not flip the kernel), so a system whose OTF is exp(-2 pi i (u s + v t)) moves the picture by (-s, -t) instead of (s, t).",
 "all pictures, kernels, even OTF sizes from 12 and displacements of up to four pixels",
 "the tests use real, symmetric OTFs, for which correlation and convolution agree",
 [O+":apply_otf_to_image", O+":otf_to_psf"])
prop("C122", "Number of samples of a slice in double precision",
 "slice_otf stops short of the edge of the array: an n x n array gives the samples at 0, 1, ... rows from the centre that lie before the last one, n/2 for even and (n-1)/2 for odd n. In double precision no sample position is outside the array and each is within (3i+1)/2^53 of i rows from the centre; an even n gives n/2 samples; an odd n gives one sample more, on the edge, exactly when the spacing u[1] - u[0] computed from rounded coordinates is below 2/(n-1); the 101 x 101 arrays of the ratings give 50.",
 "all array sizes from 3 to 2^25",
 "the number of samples depends on the last bit of a difference of rounded numbers; the tests use a few small arrays",
 [O+":slice_otf"])
prop("C123", "Obscured aperture OTF in double precision",
 "circular_aperture_OTF takes the cross term of an obscured aperture from one branch below rho = (1-eta) r0/2 and from another above. In double precision the computed value is within 10^-4 of the exact one (10^-6 without obscuration), except that where the two conditions, rounded separately, disagree the cross term is left out or counted twice: the value is then 2 eta^2/(1-eta^2) too high or too low. This needs 2 rho/r0 within 2^-35 of 1 - eta. It happens in practice: with the repository's example telescope (D = 0.273 m, eta = 0.4, band from 0.50 um) at exactly eight points of the 101 x 101 grid of the NIIRS model, 0.38 too high; at 422 of the 1371 database wavelengths; it breaks the point symmetry of the 1501 x 1501 grid of simulate_image; with eta = 0.6 the MTF becomes negative.",
 "all frequencies up to twice the cutoff, wavelengths and diameters between 2^-200 and 2^200 m, obscurations from 0.1 to 0.9, all arccos, sin, tan, arctan within 2^-40; the grids point by point",
 "an exact tie between two rounded expressions has probability zero for sampled inputs, yet round-number configurations hit it; the tests compare a few points away from the tie",
 [O+":circular_aperture_OTF"])
prop("C124", "Hufnagel-Valley 5/7: five centimetres, seven microradians",
 "The docstring of hufnagel_valley_turbulence_profile says that with 21 m/s and 1.7e-14 the profile gives a coherence diameter of 5 cm and an isoplanatic angle of 7 urad on a vertical path into space. At 0.5 um it does: 4.95 to 4.98 cm in the limit of fine sampling for a source 1000 km or more above a telescope on the ground, 4.8 to 5.2 cm on the ten thousand samples the code takes of 100 to 120 km, and 6.85 to 6.95 urad from any path of at least 60 km. In the order the image chain uses, target on the ground and camera above, the same functions give 2.16e-5 to 2.23e-5 times the distance: 8.8 m for a satellite at 400 km. Behind this: coherence_diameter on ever finer even samples tends to Fried's formula with a true integral, and the column of turbulence tends to a closed form for every wind speed and ground strength.",
 "all path lengths in the stated ranges; all continuous positive profiles, wavelengths and lengths for the convergence; all winds and ground strengths for the column",
 "the tests evaluate the profile at single heights and the coherence diameter for two or three samples; the claims are about integrals over ten thousand samples or an unbounded path",
 [O+":hufnagel_valley_turbulence_profile", O+":coherence_diameter", G+":altitude_along_slant_path"])
prop("C129", "Documented exceptions of the transfer functions",
 "common_OTFs raises IndexError if uu or vv are empty and ZeroDivisionError if slant_range is 0. It does not: an empty grid gives empty arrays. IndexError comes from the band lists alone (none, or two or more wavelengths with another number of weights), whatever the grid, range, sensor and scenario; ZeroDivisionError comes exactly from a range that is the Python number 0 with turbulence on; otherwise the call succeeds and every array has one entry per grid point. polychromatic_turbulence_OTF has the same two exceptions, the range checked first; coherence_diameter raises exactly for an empty path and for wavelength 0; image_domain_defocus_radii exactly for focal length 0 (documented as slant_range), object_domain_defocus_radii for either distance 0.",
 "all grids including the empty one, band lists, ranges, sensors with a one-row filter kernel and scenarios at or above the ground",
 "the tests pass empty grids only together with empty band lists, so they cannot tell which of the two raises",
 [O+":common_OTFs", O+":polychromatic_turbulence_OTF", O+":coherence_diameter", O+":image_domain_defocus_radii", O+":object_domain_defocus_radii"])
prop("C130", "Documented infinite and undefined outputs",
 "The docstrings warn that outputs can be infinite or nan. Exactly: detector_OTF is nan at every frequency if and only if f is 0. With a positive coherence diameter turbulence_OTF is finite for every positive D; for D = 0 it is infinite for a short exposure (alpha > 0) away from zero frequency and nan at zero frequency, at wavelength 0 and for alpha 0; at wavelength 0 with an aperture it is 1. wind_speed_turbulence_OTF is nan at every frequency for D = 0 and finite otherwise. wavefront_OTF at wavelength 0 is 1, and nan only with a correlation length 0 or infinite phase variance. weighted_by_wavelength with weights all 0 is nan in every entry. coherence_diameter is infinite for one sample and without turbulence; with two samples of a uniform path it does not fail, it returns 0.84 of Fried's value. circular_aperture_OTF with eta 1 is infinite at zero frequency and elsewhere 0/0, nan.",
 "all frequencies, wavelengths, apertures, coherence diameters, weights, paths",
 "the tests check isnan or isinf at single points; a warning that says 'can be' does not say for which inputs",
 [O+":detector_OTF", O+":turbulence_OTF", O+":wind_speed_turbulence_OTF", O+":wavefront_OTF", O+":weighted_by_wavelength", O+":coherence_diameter", O+":circular_aperture_OTF"])
