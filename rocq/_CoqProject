-Q theories Verif
theories/Admom2_Proofs.v
theories/Admom3_Proofs.v
theories/Admom4_Proofs.v
theories/Admom5_Proofs.v
theories/Admom_Model.v
theories/Admom_Proofs.v
theories/Admom_Props.v
theories/Admom_Spec.v
theories/AmTurn2_Proofs.v
theories/AmTurnCen_Proofs.v
theories/AmTurnCen_Props.v
theories/AmTurnCen_Spec.v
theories/AmTurnCex_Proofs.v
theories/AmTurn_Proofs.v
theories/AmTurn_Props.v
theories/AmTurn_Spec.v
theories/Base.v
theories/ConvAlg_Proofs.v
theories/ConvAlg_Props.v
theories/CoordsAm_Proofs.v
theories/CoordsCex_Proofs.v
theories/CoordsGM_Proofs.v
theories/Coords_Proofs.v
theories/Coords_Props.v
theories/Coords_Spec.v
theories/EMCex_Proofs.v
theories/EMExample_Proofs.v
theories/EMGo_Proofs.v
theories/EMIter_Proofs.v
theories/EMLikeCex_Proofs.v
theories/EMLike_Proofs.v
theories/EMLoop_Proofs.v
theories/EMMask_Proofs.v
theories/EMPrep_Proofs.v
theories/EMResult_Proofs.v
theories/EMThm_Proofs.v
theories/EMTurn2_Proofs.v
theories/EMTurnCex_Proofs.v
theories/EMTurnPos_Proofs.v
theories/EMTurn_Proofs.v
theories/EMTurn_Props.v
theories/EMTurn_Spec.v
theories/EM_Model.v
theories/EM_Proofs.v
theories/EM_Props.v
theories/EM_Spec.v
theories/Epochs2_Proofs.v
theories/EpochsCex_Proofs.v
theories/Epochs_Proofs.v
theories/Epochs_Props.v
theories/Epochs_Spec.v
theories/FastExp_Model.v
theories/FastExp_Proofs.v
theories/FastExp_Props.v
theories/Fit2_Proofs.v
theories/Fit3_Proofs.v
theories/Fit4_Proofs.v
theories/FitCex_Proofs.v
theories/FitUnits2_Proofs.v
theories/FitUnits3_Proofs.v
theories/FitUnits4_Proofs.v
theories/FitUnits5_Proofs.v
theories/FitUnitsCex_Proofs.v
theories/FitUnits_Proofs.v
theories/FitUnits_Props.v
theories/FitUnits_Spec.v
theories/Fit_Model.v
theories/Fit_Proofs.v
theories/Fit_Props.v
theories/Fit_Spec.v
theories/FitterCex_Proofs.v
theories/Fitter_Model.v
theories/Fitter_Proofs.v
theories/Fitter_Props.v
theories/Fitter_Spec.v
theories/Flags_Model.v
theories/Flags_Proofs.v
theories/Flags_Props.v
theories/Flags_Spec.v
theories/FluxBands_Proofs.v
theories/FluxFit_Proofs.v
theories/FluxLikCex_Proofs.v
theories/FluxLik_Proofs.v
theories/FluxLik_Props.v
theories/FluxLik_Spec.v
theories/FluxRel_Proofs.v
theories/FluxRel_Props.v
theories/FluxRel_Spec.v
theories/GMixLists_Model.v
theories/GMixLists_Proofs.v
theories/GMixLists_Props.v
theories/GMixLists_Spec.v
theories/GMixNDCex_Proofs.v
theories/GMixND_Model.v
theories/GMixND_Proofs.v
theories/GMixND_Props.v
theories/GMixND_Spec.v
theories/GMixObj_Model.v
theories/GMixObj_Proofs.v
theories/GMixObj_Props.v
theories/GMixObj_Spec.v
theories/GMixTotal_Model.v
theories/GMixTotal_Proofs.v
theories/GMixTotal_Props.v
theories/GMixTotal_Spec.v
theories/GMix_Model.v
theories/GMix_Proofs.v
theories/GMix_Props.v
theories/GMix_Spec.v
theories/Galsim2_Proofs.v
theories/Galsim3_Proofs.v
theories/Galsim4_Proofs.v
theories/Galsim5_Proofs.v
theories/Galsim6_Proofs.v
theories/GalsimCache_Model.v
theories/GalsimCache_Proofs.v
theories/GalsimCache_Props.v
theories/GalsimCache_Spec.v
theories/GalsimCex_Proofs.v
theories/GalsimFitterCex_Proofs.v
theories/GalsimFitter_Model.v
theories/GalsimFitter_Proofs.v
theories/GalsimFitter_Props.v
theories/GalsimFitter_Spec.v
theories/GalsimPSFFlux_Model.v
theories/GalsimPSFFlux_Proofs.v
theories/GalsimPSFFlux_Props.v
theories/GalsimPSFFlux_Spec.v
theories/Galsim_Model.v
theories/Galsim_Proofs.v
theories/Galsim_Props.v
theories/Galsim_Spec.v
theories/GaussAp_Model.v
theories/GaussAp_Proofs.v
theories/GaussAp_Props.v
theories/GaussAp_Spec.v
theories/GaussMomCex_Proofs.v
theories/GaussMom_Model.v
theories/GaussMom_Proofs.v
theories/GaussMom_Props.v
theories/GaussMom_Spec.v
theories/Guessers2_Proofs.v
theories/Guessers3_Proofs.v
theories/Guessers4_Proofs.v
theories/GuessersCex_Proofs.v
theories/GuessersPSF_Proofs.v
theories/GuessersPrior_Proofs.v
theories/Guessers_Model.v
theories/Guessers_Proofs.v
theories/Guessers_Props.v
theories/Guessers_Spec.v
theories/Jacobian_Model.v
theories/Jacobian_Proofs.v
theories/Jacobian_Props.v
theories/Jacobian_Spec.v
theories/Joint_Model.v
theories/Joint_Proofs.v
theories/Joint_Props.v
theories/Joint_Spec.v
theories/KDE_Model.v
theories/KDE_Proofs.v
theories/KDE_Props.v
theories/KDE_Spec.v
theories/LMCex_Proofs.v
theories/LMDer_Model.v
theories/LMDer_Proofs.v
theories/LMDer_Props.v
theories/LMDer_Spec.v
theories/LM_Model.v
theories/LM_Proofs.v
theories/LM_Props.v
theories/LM_Spec.v
theories/Layout2_Proofs.v
theories/Layout3_Proofs.v
theories/LayoutCex_Proofs.v
theories/Layout_Proofs.v
theories/Layout_Props.v
theories/Layout_Spec.v
theories/Meaning_Proofs.v
theories/Meaning_Props.v
theories/Meaning_Spec.v
theories/MedsCex_Proofs.v
theories/Meds_Model.v
theories/Meds_Proofs.v
theories/Meds_Props.v
theories/Meds_Spec.v
theories/MetacalCex_Proofs.v
theories/MetacalCont_Proofs.v
theories/MetacalDil_Proofs.v
theories/Metacal_Model.v
theories/Metacal_Proofs.v
theories/Metacal_Props.v
theories/Metacal_Spec.v
theories/ModelTable_Model.v
theories/ModelTable_Proofs.v
theories/ModelTable_Props.v
theories/ModelTable_Spec.v
theories/MomResult_Model.v
theories/MomResult_Proofs.v
theories/MomResult_Props.v
theories/MomResult_Spec.v
theories/Moments_Model.v
theories/Moments_Proofs.v
theories/Moments_Props.v
theories/Moments_Spec.v
theories/Motion2_Proofs.v
theories/MotionCex_Proofs.v
theories/Motion_Proofs.v
theories/Motion_Props.v
theories/Motion_Spec.v
theories/NoiseEM_Proofs.v
theories/NoiseFit_Proofs.v
theories/NoisePP_Proofs.v
theories/Noise_Proofs.v
theories/Noise_Props.v
theories/Noise_Spec.v
theories/ObsCex_Proofs.v
theories/ObsEq_Model.v
theories/ObsEq_Proofs.v
theories/ObsEq_Props.v
theories/ObsEq_Spec.v
theories/ObsListCex_Proofs.v
theories/ObsListCopy_Proofs.v
theories/ObsList_Model.v
theories/ObsList_Proofs.v
theories/ObsList_Props.v
theories/ObsList_Spec.v
theories/ObsS2N_Proofs.v
theories/ObsSet_Proofs.v
theories/ObsThm_Proofs.v
theories/ObsVal_Model.v
theories/ObsZone_Proofs.v
theories/Obs_Model.v
theories/Obs_Proofs.v
theories/Obs_Props.v
theories/Obs_Spec.v
theories/PSFFlux_Model.v
theories/PSFFlux_Proofs.v
theories/PSFFlux_Props.v
theories/PSFFlux_Spec.v
theories/PSFGuess_Model.v
theories/PSFGuess_Proofs.v
theories/PSFGuess_Props.v
theories/PSFGuess_Spec.v
theories/Pixels_Model.v
theories/Pixels_Proofs.v
theories/Pixels_Props.v
theories/Pixels_Spec.v
theories/PrePSF2_Proofs.v
theories/PrePSF3_Proofs.v
theories/PrePSF4_Proofs.v
theories/PrePSF5_Proofs.v
theories/PrePSF6_Proofs.v
theories/PrePSF7_Proofs.v
theories/PrePSF8_Proofs.v
theories/PrePSF9_Proofs.v
theories/PrePSFCache_Model.v
theories/PrePSFCache_Proofs.v
theories/PrePSFCache_Props.v
theories/PrePSFCache_Spec.v
theories/PrePSFCex_Proofs.v
theories/PrePSFTurnCex_Proofs.v
theories/PrePSFTurn_Proofs.v
theories/PrePSFTurn_Props.v
theories/PrePSFTurn_Spec.v
theories/PrePSF_Model.v
theories/PrePSF_Proofs.v
theories/PrePSF_Props.v
theories/PrePSF_Spec.v
theories/PriorFitCex_Proofs.v
theories/PriorFit_Model.v
theories/PriorFit_Proofs.v
theories/PriorFit_Props.v
theories/PriorFit_Spec.v
theories/PriorSample_Model.v
theories/PriorSample_Proofs.v
theories/PriorSample_Props.v
theories/PriorSample_Spec.v
theories/PriorsCex_Proofs.v
theories/Priors_Model.v
theories/Priors_Proofs.v
theories/Priors_Props.v
theories/Priors_Spec.v
theories/Render_Model.v
theories/Render_Proofs.v
theories/Render_Props.v
theories/Render_Spec.v
theories/ReorderCex_Proofs.v
theories/Reorder_Proofs.v
theories/Reorder_Props.v
theories/Reorder_Spec.v
theories/ResultsCex_Proofs.v
theories/ResultsFit_Proofs.v
theories/Results_Model.v
theories/Results_Proofs.v
theories/Results_Props.v
theories/Results_Spec.v
theories/Runners2_Proofs.v
theories/Runners3_Proofs.v
theories/Runners_Model.v
theories/Runners_Proofs.v
theories/Runners_Props.v
theories/Runners_Spec.v
theories/Shape_Model.v
theories/Shape_Proofs.v
theories/Shape_Props.v
theories/Shape_Spec.v
theories/SimObsCex_Proofs.v
theories/SimObs_Model.v
theories/SimObs_Proofs.v
theories/SimObs_Props.v
theories/SimObs_Spec.v
theories/TruthCex_Proofs.v
theories/Truth_Proofs.v
theories/Truth_Props.v
theories/Truth_Spec.v
theories/Turn_Proofs.v
theories/Turn_Props.v
theories/Turn_Spec.v
theories/UnitsEMEx_Proofs.v
theories/UnitsEMGo_Proofs.v
theories/UnitsEMPix_Proofs.v
theories/UnitsEMThm_Proofs.v
theories/UnitsEM_Proofs.v
theories/UnitsEM_Props.v
theories/UnitsEM_Spec.v
theories/UnitsPP_Proofs.v
theories/Units_Proofs.v
theories/Units_Props.v
theories/Units_Spec.v
theories/UnweightedCex2_Proofs.v
theories/UnweightedCex3_Proofs.v
theories/UnweightedCex_Proofs.v
theories/Unweighted_Proofs.v
theories/Unweighted_Props.v
theories/Unweighted_Spec.v
theories/WSums_Model.v
theories/WSums_Proofs.v
theories/WSums_Props.v
theories/WSums_Spec.v
theories/Widths_Model.v
theories/Widths_Proofs.v
theories/Widths_Props.v
theories/Widths_Spec.v
theories/XReal.v
