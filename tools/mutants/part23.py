# wrong programs against ignored sensor parameters (C137)
M = []
def m(definition, old, new, claim, file):
    M.append(dict(definition=definition, file=file, old=old, new=new, claim=claim, targets=["Prop_Stray"]))
m("sensor_other_irradiance", "(s_e_filt s) (s_D s) (s_f s) in\n  bmap2 xadd ab c.", "(s_e_filt s) (s_D s) (s_f s) in\n  let* abc := bmap2 xadd ab c in Ok (map (xadd (Fin (s_other_irr s))) abc).", "C137: stray light counted, as documented (the finding would be gone)", "Model_Rad")
m("g_noise_of", "(Fin (s_read s * s_read s)))", "(Fin (s_read s * s_read s + Rsum (map (fun x => x * x) (s_other_noise s)))))", "C137: further noise terms added to the picture", "Model_Sim")
m("g_noise_of", "xsqrt (xadd (xsq (quantization_noise (s_max_n s) (s_bits s))) (Fin (s_read s * s_read s)))", "xdiv (xsqrt (xadd (xsq (quantization_noise (s_max_n s) (s_bits s))) (Fin (s_read s * s_read s)))) (xsqrt (Fin (s_frames s)))", "C137: noise of the picture averaged over the stacked frames", "Model_Sim")
m("simulate_otf", "(slant_flat c) (s_int_time s) in", "(slant_flat c) (s_int_time s * s_frames s) in", "C137: drift during all stacked frames", "Model_Sim")
m("niirs_rest", "let snr := xmul (xsqrt (Fin (s_frames s))) (m_snr (ct_snr ct)) in", "let snr := xsub (xmul (xsqrt (Fin (s_frames s))) (m_snr (ct_snr ct))) (Fin (s_other_irr s)) in", "C137: stray light lowers the contrast of niirs", "Model_Met")
m("no_sharpening", "s_dark := s_dark s; s_other_irr := s_other_irr s; s_read := s_read s;\n     s_max_n", "s_dark := s_dark s; s_other_irr := 0; s_read := s_read s;\n     s_max_n", "C137: niirs5 resets the stray light of the sensor", "Model_Met")
m("reflectance_to_photoelectrons", "limit_to_well (s_max_n s) (map fst out)", "limit_to_well (s_max_fill s * s_max_n s) (map fst out)", "C137: well filled to the limit of the sensor", "Model_Rad")
