# wrong programs against ignored parameters of the scenario (C137)
M = []
def m(definition, old, new, claim, file):
    M.append(dict(definition=definition, file=file, old=old, new=new, claim=claim, targets=["Prop_Stray"]))
m("common_OTFs", "(plain c HaWindSpeed)", "(plain c BackgroundTemperature)", "C137: background temperature taken for the wind speed", "Model_Otf")
m("common_OTFs", "(plain c AircraftSpeed)", "(plain c TargetTemperature)", "C137: target temperature taken for the speed of the aircraft", "Model_Otf")
m("simulate_rest", "(sr_gsd r) Np (slant_flat c) otf", "(sr_gsd r) Np (slant_flat c + plain c TargetReflectance) otf", "C137: reflectance enters the range of the picture", "Model_Sim")
m("niirs5_rest", "let gsd_x := ifov_x * slant_range in\n  let* mtf", "let gsd_x := ifov_x * slant_range * plain c BackgroundTemperature in\n  let* mtf", "C137: background temperature enters niirs5", "Model_Met")
