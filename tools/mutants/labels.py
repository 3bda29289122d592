"""Corrections and explanations for mklog.py."""
# edits filed under the wrong property at first
RELABEL = {"09488da636": "C135", "a78b7816f0": "C69", "ff138461a1": "C69", "afd19224d4": "C95", "f401005131": "C81", "85c4f9184d": "C95", "1ad7e419b3": "C83",
  "f42161461d": "C97", "39bda3e0c0": "C119", "35a05381d0": "C116", "9df5f376ef": "C12", "9bc619f365": "C121",
  "307008f067": "C09", "6749996c8b": "C09", "ece903d109": "C09", "08ccc59a6f": "C09", "db5bd854da": "C09", "ae3bb39b47": "C09",
  "671b5b3ae4": "C13", "6a190fd8c6": "C69", "7ce42d1ae5": "C95", "006ce6b1b4": "C56", "31ee1ccbb3": "C37", "746374f2e1": "C37", "e53f0c785b": "C69", "026578686e": "C106"}
# edit -> (theorems added or changed because of it, how it was found)
TIGHTENED = {
 "09488da636": (["C135_no_table", "C135_no_table_simulation"], "the exception of an empty wavelength table was not stated"),
 "6c43ae0f89": (["C21_percentile_value"], "the bounds of C21 alone left the position between the neighbours open"),
 "685429b0a9": (["C21_percentile_value"], "the bounds of C21 alone left the position between the neighbours open"),
 "d59c4784eb": (["C21_percentile_value"], "the bounds of C21 alone left the position between the neighbours open"),
 "9065e35087": (["C07_quarters", "C07_exact_kernel_raises_iff"], "the refutation and its witness hold for other literals and sums as well; the new theorem says which kernels are exact in binary64 and fails with this edit"),
 "faf075a0b6": (["C07_quarters", "C07_exact_kernel_raises_iff"], "the refutation and its witness hold for other literals and sums as well; the new theorem says which kernels are exact in binary64 and fails with this edit"),
 "a38ce1fe90": (["C07_quarters"], "the refutation and its witness hold for other literals and sums as well; the new theorem says which kernels are exact in binary64 and fails with this edit"),
 "54b544c144": (["C134_radiance", "C134_rows"], "the other theorems state their atmosphere through atm_rows; the new ones name the columns of the table and fail with this edit"),
 "8ddec54b01": (["C134_radiance", "C134_rows"], "the other theorems state their atmosphere through atm_rows; the new ones name the columns of the table and fail with this edit"),
 "309b045a06": (["C134_radiance", "C134_rows"], "the other theorems state their atmosphere through atm_rows; the new ones name the columns of the table and fail with this edit"),
 "4639de42a8": (["C134_radiance", "C134_rows"], "the other theorems state their atmosphere through atm_rows; the new ones name the columns of the table and fail with this edit"),
 "e88245e188": (["C134_radiance", "C134_rows"], "the other theorems state their atmosphere through atm_rows; the new ones name the columns of the table and fail with this edit"),
 "8901f25167": (["C115_zero_spacing_f64"], "an infinite or undefined size was not covered; the new theorem states the exception"),
 "5d3240322b": (["C115_zero_spacing_f64"], "an infinite or undefined size was not covered; the new theorem states the exception"),
 "ad89d1e896": (["C69_numpy_spacing", "C74_zero_gsd_zero_range"], "an infinite or undefined size was not covered; the new theorem states the exception"),
 "b25dd7a1d7": (["C116_baseline_frame_database", "C116_baseline_database"], "the earlier theorems assumed the shortest wavelength seen; the new ones compute it from the database"),
 "026578686e": (["C106_niirs_chart", "C106_niirs5_chart"], "the ends of the axes were not stated"),
 "c5fd6b6055": (["C85_niirs5_inputs", "C85_niirs5"], "the inputs of the rating were not named separately"),
 "9506c85c81": (["C88_given_calibration", "C88_default_calibration"], "the calibration of the simulated image was left open"),
 "d05b188424": (["C88_given_calibration", "C88_default_calibration"], "the calibration of the simulated image was left open"),
}
# systematic edits that survived once: theorems added because of them
ADDED = {("Model_F64Slice", "slice_u_f64", 22): ["C122_small"], ("Model_F64Slice", "slice_count_f64", 28): ["C122_small"]}
# hand-written edits that no theorem notices
HARMLESS = {
 "1a3fce6971": "unreachable: the lists of altitudes and ranges are constants and not empty",
 "3316f8f012": "unreachable: load_database_atmosphere has already rejected altitudes and ranges beyond the last node, so the list of nodes above is never empty",
 "e38dbb600a": "380 * 1e-9 and 380e-9 are the same number and 700 * 1e-9 and 700e-9 neighbours with no wavelength sample between them, so every claim about the band is still true of the edited program",
 "29b4ea256c": "the focal length is proportional to the pitch, which cancels in every size; the claims are still true of the edited program",
 "311789aae5": "no modelled function uses it",
 "86c6945240": "unreachable for positive wavelengths and diameters, where the argument of the Bessel function is finite",
 "8242026fac": "two other keywords of the call are still unknown, so every call still raises AttributeError",
}
SURVIVORS = {
 ("Model_F64Slice", "f_ceil", 12): "unreachable: the spacing of two or more rows is a nonzero finite number, so the quotient is finite",
 ("Model_F64Slice", "f_ceil", 13): "unreachable: the spacing of two or more rows is a nonzero finite number, so the quotient is finite",
 ("Model_F64Slice", "slice_u_f64", 22): "at an earlier commit; it matters for two rows only, C122_small was added and fails with it",
 ("Model_F64Slice", "slice_count_f64", 28): "at an earlier commit; it matters below two rows only, C122_small was added and fails with it",
 ("Model_Scenario", "step", 93): "the edited branch answers an index that the model's heap does not hold; no Python history reaches it",
 ("Model_Sensor", "estimate_capture_parameters", 86): "unreachable: pitch / 2 / f is not zero (the divisions before it would have raised), so the angle is not zero and the branch is never taken",
}
