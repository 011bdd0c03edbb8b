-Q theories Verif
theories/Access_Proofs.v
theories/Altaz_Model.v
theories/Altaz_Proofs.v
theories/Altaz_Props.v
theories/Altaz_Spec.v
theories/AnomalyInj_Proofs.v
theories/AnomalyMean_Proofs.v
theories/AnomalyRound_Proofs.v
theories/Anomaly_Proofs.v
theories/Area_Proofs.v
theories/Area_Props.v
theories/Area_Spec.v
theories/Base.v
theories/BaseFacts.v
theories/Config_Model.v
theories/Config_Proofs.v
theories/Config_Proofs2.v
theories/Config_Props.v
theories/Config_Spec.v
theories/Const_Model.v
theories/Const_Proofs.v
theories/Const_Proofs2.v
theories/Const_Props.v
theories/Const_Refute.v
theories/Const_Spec.v
theories/Coverage_Model.v
theories/Coverage_Proofs1.v
theories/Coverage_Proofs2.v
theories/Coverage_Proofs3.v
theories/Coverage_Props.v
theories/Coverage_Spec.v
theories/Dop_Model.v
theories/Dop_Proofs.v
theories/Dop_Proofs2.v
theories/Dop_Proofs3.v
theories/Dop_Props.v
theories/Dop_Spec.v
theories/Dopat_Model.v
theories/Dopat_Proofs.v
theories/Dopat_Props.v
theories/Dopat_Spec.v
theories/Epoch_Model.v
theories/Epoch_Proofs.v
theories/Epoch_Props.v
theories/Epoch_Spec.v
theories/Export_Model.v
theories/Export_Proofs.v
theories/Export_Proofs2.v
theories/Export_Proofs3.v
theories/Export_Proofs4.v
theories/Export_Proofs5.v
theories/Export_Props.v
theories/Export_Spec.v
theories/Export_Witness.v
theories/FAnom_Model.v
theories/FAnom_Proofs.v
theories/FAnom_Proofs2.v
theories/FAnom_Proofs3.v
theories/FAnom_Proofs4.v
theories/FAnom_Props.v
theories/FAnom_Spec.v
theories/FCell_Model.v
theories/FCell_Proofs.v
theories/FCell_Props.v
theories/FCell_Spec.v
theories/FGeom_Model.v
theories/FGeom_Proofs.v
theories/FGeom_Proofs2.v
theories/FGeom_Props.v
theories/FGeom_Spec.v
theories/FGrid_Model.v
theories/FGrid_Proofs.v
theories/FGrid_Proofs2.v
theories/FGrid_Props.v
theories/FGrid_Spec.v
theories/FLat_Proofs.v
theories/FLat_Props.v
theories/FLat_Spec.v
theories/FMog_Model.v
theories/FMog_Proofs.v
theories/FMog_Proofs2.v
theories/FMog_Proofs3.v
theories/FMog_Proofs4.v
theories/FMog_Proofs5.v
theories/FMog_Proofs6.v
theories/FMog_Proofs7.v
theories/FMog_Props.v
theories/FMog_Spec.v
theories/FMog_Spec2.v
theories/FReach_Model.v
theories/FReach_Proofs.v
theories/FReach_Props.v
theories/FReach_Spec.v
theories/FSoc_Model.v
theories/FSoc_Proofs.v
theories/FSoc_Proofs2.v
theories/FSoc_Proofs3.v
theories/FSoc_Proofs4.v
theories/FSoc_Proofs5.v
theories/FSoc_Proofs6.v
theories/FSoc_Props.v
theories/FSoc_Spec.v
theories/FSso_Model.v
theories/FSso_Proofs.v
theories/FSso_Props.v
theories/FSso_Spec.v
theories/FTime_Model.v
theories/FTime_Proofs.v
theories/FTime_Proofs2.v
theories/FTime_Props.v
theories/FTime_Spec.v
theories/Fib_Proofs.v
theories/Fleet_Proofs.v
theories/Fleet_Props.v
theories/Fleet_Spec.v
theories/Float_Model.v
theories/Float_Proofs.v
theories/Float_Props.v
theories/Float_Spec.v
theories/Foot_Model.v
theories/Foot_Proofs.v
theories/Foot_Proofs2.v
theories/Foot_Proofs3.v
theories/Foot_Proofs4.v
theories/Foot_Proofs5.v
theories/Foot_Props.v
theories/Foot_Spec.v
theories/Frames_Model.v
theories/Frames_Proofs.v
theories/Frames_Proofs2.v
theories/Frames_Props.v
theories/Frames_Spec.v
theories/Geom_Model.v
theories/Geom_Proofs.v
theories/Geom_Proofs2.v
theories/Geom_Proofs3.v
theories/Geom_Proofs4.v
theories/Geom_Props.v
theories/Geom_Spec.v
theories/Grid_Model.v
theories/Grid_Proofs.v
theories/Grid_Proofs2.v
theories/Grid_Proofs3.v
theories/Grid_Props.v
theories/Grid_Spec.v
theories/Growth_Proofs.v
theories/Growth_Props.v
theories/Growth_Spec.v
theories/Instr_Model.v
theories/Instr_Proofs.v
theories/Instr_Proofs2.v
theories/Instr_Props.v
theories/Instr_Spec.v
theories/Latency_Model.v
theories/Latency_Proofs.v
theories/Latency_Props.v
theories/Latency_Spec.v
theories/Mask_Model.v
theories/Mask_Proofs.v
theories/Mask_Proofs2.v
theories/Mask_Proofs3.v
theories/Mask_Props.v
theories/Mask_Spec.v
theories/Mog_Model.v
theories/Mog_Proofs.v
theories/Mog_Proofs2.v
theories/Mog_Props.v
theories/Mog_Spec.v
theories/Names_Proofs.v
theories/Orbit_Model.v
theories/Orbit_Proofs.v
theories/Orbit_Proofs2.v
theories/Orbit_Props.v
theories/Orbit_Spec.v
theories/Pipe_Proofs.v
theories/Pipe_Props.v
theories/Pipe_Spec.v
theories/Poly_Model.v
theories/Poly_Proofs.v
theories/Poly_Proofs2.v
theories/Poly_Proofs3.v
theories/Poly_Proofs4.v
theories/Poly_Props.v
theories/Poly_Spec.v
theories/Pure_Model.v
theories/Pure_Proofs.v
theories/Pure_Props.v
theories/Pure_Spec.v
theories/RBase.v
theories/RFacts.v
theories/RTrig.v
theories/RTrigFacts.v
theories/Ro_Model.v
theories/Ro_Proofs.v
theories/Ro_Proofs2.v
theories/Ro_Proofs3.v
theories/Ro_Props.v
theories/Ro_Spec.v
theories/Schema_Model.v
theories/Schema_Proofs.v
theories/Schema_Proofs2.v
theories/Schema_Proofs3.v
theories/Schema_Proofs4.v
theories/Schema_Props.v
theories/Schema_Spec.v
theories/Seen_Model.v
theories/Seen_Proofs.v
theories/Seen_Proofs2.v
theories/Seen_Proofs3.v
theories/Seen_Proofs4.v
theories/Seen_Props.v
theories/Seen_Spec.v
theories/Share_Model.v
theories/Share_Proofs.v
theories/Share_Props.v
theories/Share_Spec.v
theories/Tle_Model.v
theories/Tle_Odd_Proofs.v
theories/Tle_Proofs.v
theories/Tle_Proofs2.v
theories/Tle_Props.v
theories/Tle_Spec.v
theories/Track_Model.v
theories/Track_Proofs.v
theories/Track_Proofs2.v
theories/Track_Proofs3.v
theories/Track_Proofs4.v
theories/Track_Proofs5.v
theories/Track_Props.v
theories/Track_Spec.v
theories/Whole_Proofs.v
theories/Whole_Props.v
theories/Whole_Spec.v
theories/Zone_Model.v
theories/Zone_Proofs.v
theories/Zone_Props.v
theories/Zone_Spec.v
