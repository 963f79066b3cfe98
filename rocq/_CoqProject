-Q theories Verif
theories/Base.v
theories/BaseFacts.v
theories/Utility_Model.v
theories/Utility_Spec.v
theories/Utility_Proofs.v
theories/Utility_Props.v
theories/Flt.v
theories/FltFacts.v
theories/Extrema_Model.v
theories/Extrema_Spec.v
theories/Extrema_Proofs.v
theories/Extrema_Props.v
theories/MakeMap_Model.v
theories/MakeMap_Spec.v
theories/MakeMap_Proofs.v
theories/MakeMap_Props.v
theories/Num.v
theories/Photo_Model.v
theories/Composite_Spec.v
theories/Composite_Proofs.v
theories/Photo_Spec.v
theories/Photo_Proofs.v
theories/PhotoReal_Proofs.v
theories/Composite_Props.v
theories/Photo_Props.v
theories/Maths_Model.v
theories/LinAlg_Model.v
theories/Maths_Spec.v
theories/Maths_Proofs.v
theories/LinAlg_Proofs.v
theories/Maths_Props.v
theories/LinAlg_Props.v
theories/Spheroid_Model.v
theories/Spheroid_Spec.v
theories/Spheroid_Proofs.v
theories/Spheroid_Props.v
theories/View_Model.v
theories/View_Spec.v
theories/View_Proofs.v
theories/ViewSet_Proofs.v
theories/ViewRot_Proofs.v
theories/ViewConv_Proofs.v
theories/ViewAxis_Proofs.v
theories/View_Props.v
theories/Proj_Model.v
theories/Proj_Spec.v
theories/Proj_Proofs.v
theories/ProjGrid_Proofs.v
theories/ProjGridR_Proofs.v
theories/ProjGridX_Proofs.v
theories/ProjMerc_Proofs.v
theories/ProjPolar_Proofs.v
theories/Proj_Props.v
theories/ProjFind_Proofs.v
theories/ProjFind_Props.v
theories/Ortho_Model.v
theories/Ortho_Spec.v
theories/Ortho_Proofs.v
theories/OrthoVis_Proofs.v
theories/OrthoGrid_Proofs.v
theories/OrthoGridR_Proofs.v
theories/OrthoGridX_Proofs.v
theories/Ortho_Props.v
theories/PolarGrid_Spec.v
theories/PolarGrid_Proofs.v
theories/PolarGrid_Props.v
theories/Virtual_Model.v
theories/Virtual_Spec.v
theories/Virtual_Proofs.v
theories/VirtualScale_Proofs.v
theories/VirtualPlane_Proofs.v
theories/Virtual_Props.v
theories/Params_Model.v
theories/Params_Spec.v
theories/Params_Proofs.v
theories/Params_Props.v
theories/Fits_Model.v
theories/Fits_Spec.v
theories/Fits_Proofs.v
theories/Fits_Props.v
theories/Command_Model.v
theories/Command_Spec.v
theories/Command_Proofs.v
theories/Command_Props.v
theories/Console_Model.v
theories/Console_Spec.v
theories/Console_Proofs.v
theories/Console_Props.v
theories/Cli_Model.v
theories/Cli_Spec.v
theories/Cli_Proofs.v
theories/Cli_Props.v
theories/Entry_Model.v
theories/Entry_Spec.v
theories/Entry_Proofs.v
theories/Entry_Props.v
theories/Expr_Model.v
theories/Expr_Spec.v
theories/Expr_Proofs.v
theories/Expr_Props.v
theories/Parse_Model.v
theories/Parse_Spec.v
theories/Parse_Proofs.v
theories/Parse_Props.v
theories/Text_Model.v
theories/Text_Spec.v
theories/TextEntries_Spec.v
theories/TextGrammar_Proofs.v
theories/Text_Proofs.v
theories/TextEntries_Proofs.v
theories/TextCases_Proofs.v
theories/Text_Props.v
theories/Input_Model.v
theories/Input_Spec.v
theories/Input_Proofs.v
theories/Input_Props.v
theories/Run_Model.v
theories/Run_Spec.v
theories/RunAngle_Proofs.v
theories/RunScale_Proofs.v
theories/Run_Proofs.v
theories/RunPlane_Proofs.v
theories/RunCase_Proofs.v
theories/Run_Props.v
theories/PhotoRead_Spec.v
theories/PhotoRead_Proofs.v
theories/RunPhoto_Spec.v
theories/RunPhoto_Proofs.v
theories/RunPhotoCase_Proofs.v
theories/RunPhoto_Props.v
theories/RunHeader_Spec.v
theories/RunHeader_Proofs.v
theories/RunHeaderCase_Proofs.v
theories/RunHeader_Props.v
theories/RunMercator_Spec.v
theories/RunMercator_Proofs.v
theories/RunMercator_Props.v
theories/RunGrid_Spec.v
theories/RunGrid_Proofs.v
theories/RunGrid_Props.v
theories/Program_Model.v
theories/Program_Spec.v
theories/Program_Proofs.v
theories/ProgramCase_Proofs.v
theories/Program_Props.v
theories/RunPolar_Spec.v
theories/RunPolar_Proofs.v
theories/RunPolar_Props.v
theories/RunPolarGrid_Spec.v
theories/RunPolarGrid_Proofs.v
theories/RunPolarGrid_Props.v
theories/Roots_Model.v
theories/OrthoDouble_Proofs.v
theories/OrthoRoots_Proofs.v
theories/PiBound_Proofs.v
theories/OrthoNear_Proofs.v
theories/RunOrtho_Spec.v
theories/OrthoPoint_Proofs.v
theories/OrthoCell_Proofs.v
theories/RunOrtho_Proofs.v
theories/OrthoCase_Proofs.v
theories/RunOrtho_Props.v
theories/Body_Model.v
theories/Body_Spec.v
theories/BodyDouble_Proofs.v
theories/RunBody_Proofs.v
theories/BodyCase_Proofs.v
theories/RunBody_Props.v
theories/Assert_Proofs.v
theories/Assert_Props.v
theories/RunGraphic_Spec.v
theories/RunGraphic_Proofs.v
theories/RunGraphic_Props.v
theories/RunWhole_Spec.v
theories/RunWhole_Proofs.v
theories/RunWholeCase_Proofs.v
theories/RunWhole_Props.v
theories/RunWholeAngle_Proofs.v
theories/RunWholeAngle_Props.v
theories/RunWholeMore_Proofs.v
theories/RunWholeMore_Props.v
theories/RunWholeProj_Proofs.v
theories/RunWholeProj_Props.v
theories/Setters_Model.v
theories/Setters_Spec.v
theories/Setters_Proofs.v
theories/Setters_Props.v
