# wrong programs against the theorems about the database in double precision, percentiles and calibration tables
M = []
def m(definition, file, old, new, prop, claim, *targets):
    M.append(dict(definition=definition, file=file if file.startswith("Base") else "Model_" + file, old=old, new=new, claim=prop + ": " + claim, targets=["Prop_" + t for t in targets]))
F = "F64Db"
# C117 lookup
m("row_alt_f64", F, "f_decimal a 10000", "f_of_Z a * 0.0001", "C117", "altitudes of the table multiplied by 1e-4", "F64Db")
m("row_range_f64", F, "f_decimal g 1000", "f_of_Z g * 0.001", "C117", "ranges of the table multiplied by 1e-3", "F64Db")
m("select_f64", F, "(row_alt_f64 r) (altitude / 1000)", "(row_alt_f64 r) (altitude * 0.001)", "C117", "altitude multiplied by 0.001: some listed altitudes are not found", "F64Db")
m("select_f64", F, "(row_range_f64 r) (ground_range / 1000)", "(row_range_f64 r) (ground_range * 0.001)", "C117", "range multiplied by 0.001", "F64Db")
m("select_f64", F, "PrimFloat.eqb (row_alt_f64 r) (altitude / 1000)", "PrimFloat.leb (row_alt_f64 r) (altitude / 1000)", "C117", "next lower altitude accepted", "F64Db")
m("select_f64", F, "Z.eqb (row_ihaze r) ihaze", "Z.leb (row_ihaze r) ihaze", "C117", "other haze model accepted", "F64Db")
m("load_no_interp_f64", F, "None => Err IndexError", "None => Err ValueError", "C117", "missing file as ValueError", "F64Db")
m("load_no_interp_f64", F, "  | [] => Err IndexError", "  | [] => Err ValueError", "C117", "unknown row as ValueError", "F64Db")
# C117 wavelengths
m("wavelength_f64", F, "linspace_f64 0.3 14 1371 i", "linspace_f64 0.3 14 1370 i", "C117", "one wavelength less", "F64Db", "F64Band")
m("wavelength_f64", F, "1e-6 * linspace_f64", "1e-7 * linspace_f64", "C117", "wavelengths in tenths of micrometres", "F64Db", "F64Band")
m("linspace_f64", F, "if Nat.eqb i (n - 1) then b", "if Nat.eqb i n then b", "C118", "last sample by multiplication (may agree)", "F64Db", "F64Band")
m("linspace_f64", F, "f_of_Z (Z.of_nat i) * ((b - a) / f_of_Z (Z.of_nat (n - 1))) + a", "f_of_Z (Z.of_nat i) * (b - a) / f_of_Z (Z.of_nat (n - 1)) + a", "C118", "division last: other roundings, other lost marks", "F64Db", "F64Band")
m("linspace_f64", F, "f_of_Z (Z.of_nat i) * ((b - a) / f_of_Z (Z.of_nat (n - 1))) + a", "f_of_Z (Z.of_nat i) * ((b - a) / f_of_Z (Z.of_nat n)) + a", "C117", "endpoint left out of the spacing", "F64Db", "F64Band")
m("assemble_f64", F, "S k => d i k", "S k => d i j", "C117", "columns moved by one", "F64Db")
m("assemble_f64", F, "O => wavelength_f64 i", "O => d i 0%nat", "C117", "first column from the file", "F64Db")
# C117 interpolation
m("altitude_array_f64", F, "[2; 32.55; 75;", "[2; 32.55; 70;", "C117", "70 m instead of 75 m", "F64Db")
m("altitude_array_f64", F, "[2; 32.55; 75;", "[2; 75;", "C117", "without 32.55 m: the gap is filled", "F64Db")
m("altitude_array_f64", F, "16000; 18000; 20000]", "16000; 18000; 20000; 22000]", "C117", "one altitude more", "F64Db")
m("altitude_array_f64", F, "6000; 7000; 8000;", "6000; 8000;", "C117", "without 7000 m", "F64Db")
m("ground_ranges_f64", F, "arange_f64 85000 5000 44", "arange_f64 85000 5000 43", "C117", "without 300 km", "F64Db")
m("ground_ranges_f64", F, "arange_f64 22000 2000 30", "arange_f64 22000 2000 29", "C117", "without 80 km", "F64Db")
m("ground_ranges_f64", F, "[0; 100; 500]", "[0; 500]", "C117", "without 100 m", "F64Db")
m("arange_f64", F, "start + f_of_Z (Z.of_nat i) * step", "start + f_of_Z (Z.of_nat i) * (step * 1.0000001)", "C117", "step off by a millionth", "F64Db")
m("blend_f64", F, "let low_weight := 1 - (x - lo) / (hi - lo) in", "let low_weight := 1 - (x - lo) / (hi - x) in", "C117", "weight by the wrong interval", "F64Db", "F64Band")
m("blend_f64", F, "low_weight * a i j + high_weight * b i j", "high_weight * a i j + low_weight * b i j", "C117", "weights exchanged", "F64Db")
m("blend_f64", F, "low_weight * a i j + high_weight * b i j", "low_weight * a i j + (high_weight * b i j + 1e-9)", "C117", "offset of 1e-9", "F64Db")
m("blend_f64", F, "let low_weight := 1 - (x - lo) / (hi - lo) in", "let low_weight := (hi - x) / (hi - lo) in", "C118", "weights rounded apart: other altitudes lose the sample", "F64Db", "F64Band")
m("alt_atm_interp_f64", F, "load_no_interp_f64 st high_alt ground_range ihaze", "load_no_interp_f64 st low_alt ground_range ihaze", "C117", "lower atmosphere twice", "F64Db")
m("alt_atm_interp_f64", F, "else Ok low_atm", "else Err IndexError", "C117", "no answer at the grid altitudes", "F64Db")
m("alt_atm_interp_f64", F, "if negb (PrimFloat.eqb low_alt high_alt) then", "if PrimFloat.eqb low_alt high_alt then", "C117", "condition negated", "F64Db")
m("load_interp_f64", F, "PrimFloat.ltb altitude (min_f64 altitude_array_f64) || PrimFloat.ltb (max_f64 altitude_array_f64) altitude", "PrimFloat.ltb altitude (min_f64 altitude_array_f64)", "C117", "no upper check: the same exception arises further down", "F64Db")
m("load_interp_f64", F, "filter (fun x => PrimFloat.leb x altitude) altitude_array_f64", "filter (fun x => PrimFloat.ltb x altitude) altitude_array_f64", "C117", "strict comparison below", "F64Db")
m("load_interp_f64", F, "filter (fun x => PrimFloat.leb altitude x) altitude_array_f64", "filter (fun x => PrimFloat.ltb altitude x) altitude_array_f64", "C117", "strict comparison above", "F64Db")
m("load_interp_f64", F, "let* low_range := last_f64", "let* low_range := first_f64", "C117", "always from range 0", "F64Db")
m("load_interp_f64", F, "let* atm_high_range := alt_atm_interp_f64 st low_alt high_alt altitude high_range ihaze in", "let* atm_high_range := alt_atm_interp_f64 st low_alt low_alt altitude high_range ihaze in", "C117", "far atmosphere not interpolated in altitude", "F64Db")
m("load_interp_f64", F, "Ok (blend_f64 low_range high_range ground_range atm_low_range atm_high_range)", "Ok (blend_f64 low_range high_range altitude atm_low_range atm_high_range)", "C117", "altitude instead of range", "F64Db")
m("last_f64", F, "| [x] => Ok x", "| [x] => Err IndexError", "C117", "last of one element refused", "F64Db")
m("min_f64", F, "[] => nan | x :: l => fold_left (fun m y => if PrimFloat.ltb y m then y else m) l x", "[] => nan | x :: l => fold_left (fun m y => if PrimFloat.ltb m y then y else m) l x", "C117", "minimum is a maximum", "F64Db")
# C118
m("band_f64", F, "filter (fun i => PrimFloat.leb lo (wl i))", "filter (fun i => PrimFloat.ltb lo (wl i))", "C118", "first sample excluded", "F64Band")
m("band_f64", F, "filter (fun i => PrimFloat.leb (wl i) hi) rows", "filter (fun i => PrimFloat.ltb (wl i) hi) rows", "C118", "last sample excluded", "F64Band")
m("band_f64", F, "seq 0 1371", "seq 0 1370", "C118", "last row never seen", "F64Band")
m("band_f64", F, "filter (fun i => PrimFloat.leb (wl i) hi) rows", "rows", "C118", "no upper end", "F64Band")
m("emissive_f64", F, "PrimFloat.leb 2.9e-6 lo", "PrimFloat.leb 3e-6 lo", "C118", "threshold at 3 micrometres", "F64Band")
m("emissive_f64", F, "PrimFloat.leb 2.9e-6 lo", "PrimFloat.leb 2.8999999e-6 lo", "C118", "tolerant threshold (the refutation must fail)", "F64Band")
m("capture_band_f64", F, "(380 * 1e-9, 700 * 1e-9)", "(380e-9, 700e-9)", "C118", "band as nearest numbers: 380 nm is kept", "F64Band")
m("example_band_f64", F, "(0.58 + 0.08) * 1e-6", "0.66e-6", "C118", "other rounding of the upper end", "F64Band")
# C07: damaged files
m("reshape_F", "Db", "file_value f (j * n_wave + i)%nat", "file_value f (i * 5 + j)%nat", "C07", "rows one after the other", "Db")
m("reshape_F", "Db", "Nat.eqb (file_size f) (n_wave * 5)", "Nat.leb (n_wave * 5) (file_size f)", "C07", "longer files accepted", "Db")
m("reshape_F", "Db", "Nat.eqb (file_size f) (n_wave * 5)", "Nat.leb (file_size f) (n_wave * 5)", "C07", "shorter files accepted", "Db")
m("reshape_F", "Db", "else Err ValueError", "else Err IndexError", "C07", "damaged file as IndexError", "Db")
m("load_no_interp", "Db", "| None => Err IndexError", "| None => Err ValueError", "C07", "missing file as ValueError", "Db")
m("load_no_interp", "Db", "match st (row_index r) with", "match st (if Z.eqb (row_index r) 2 then 1 else row_index r)%Z with", "C07", "one file read for another", "Db")
# C21, C88, C90: percentiles and calibration
m("lerp_at", "Base_Np", "a + (b - a) * (h - IZR k).", "a.", "C21", "lower neighbour instead of interpolation", "Sensor", "Sim")
m("lerp_at", "Base_Np", "a + (b - a) * (h - IZR k).", "b.", "C21", "upper neighbour instead of interpolation", "Sensor", "Sim")
m("lerp_at", "Base_Np", "a + (b - a) * (h - IZR k).", "(a + b) / 2.", "C21", "midpoint instead of interpolation", "Sensor", "Sim")
m("percentile", "Base_Np", "INR (length l - 1) * (q / 100)", "INR (length l) * (q / 100)", "C21", "rank by the number of pixels", "Sensor", "Sim")
m("reference_init", "Sim", "sr_gsd := ri_gsd r; sr_pix := ri_pix r; sr_refl := ri_refl r", "sr_gsd := ri_gsd r; sr_pix := ri_refl r; sr_refl := ri_pix r", "C88", "pixel and reflectance calibration exchanged (again)", "Sim")
m("reference_init", "Sim", "sr_pix := ri_pix r;", "sr_pix := rev (ri_pix r);", "C88", "calibration pixels reversed", "Sim")
m("reference_init", "Sim", "ref_image_init (ravel a) gsd pix refl", "ref_image_init (ravel a) gsd pix None", "C88", "given reflectances forgotten", "Sim")
m("reference_init", "Sim", "ref_image_init (ravel a) gsd pix refl", "ref_image_init (ravel a) gsd None refl", "C88", "given table ignored", "Sim")
m("ref_image_init", "Sensor", "percentile img 0.2", "percentile img 2", "C88", "lower default percentile 2", "Sim", "Sensor")
