-Q theories Verif
theories/PyBase.v
theories/Rounding_Model.v
theories/Rounding_Spec.v
theories/Rounding_Proofs.v
theories/Rounding_Props.v
theories/Container_Model.v
theories/Container_Spec.v
theories/Container_Proofs.v
theories/Container_Props.v
theories/Finder_Model.v
theories/Finder_Spec.v
theories/Finder_Proofs.v
theories/Finder_Props.v
theories/Poly_Model.v
theories/Refine_Model.v
theories/Refine_Spec.v
theories/Refine_Proofs.v
theories/Refine_Proofs2.v
theories/Zeros_Spec.v
theories/Zeros_Proofs.v
theories/Refine_Proofs3.v
theories/Refine_Examples.v
theories/Refine_Props.v
theories/NewtonId_Proofs.v
theories/PolyRing_Spec.v
theories/PolyRing_Proofs.v
theories/Poly_Spec.v
theories/Poly_Proofs.v
theories/PolyRun_Spec.v
theories/PolyRun_Proofs.v
theories/Poly_Examples.v
theories/Poly_Props.v
theories/Grid_Model.v
theories/Grid_Spec.v
theories/Grid_Proofs.v
theories/Grid_Props.v
theories/Cache_Model.v
theories/Cache_Spec.v
theories/Cache_Proofs.v
theories/Cache_Props.v
theories/Sum_Model.v
theories/Sum_Spec.v
theories/Angle_Proofs.v
theories/Sum_Proofs.v
theories/Sum_Proofs2.v
theories/Sum_Proofs3.v
theories/Sum_Proofs4.v
theories/Sum_Proofs5.v
theories/Sum_Proofs6.v
theories/Sum_Found.v
theories/Sum_Examples.v
theories/Sum_Props.v
theories/Quad_Model.v
theories/Quad_Spec.v
theories/Quad_Proofs.v
theories/Quad_Proofs2.v
theories/Quad_Props.v
theories/Locator_Model.v
theories/Locator_Spec.v
theories/Locator_Proofs.v
theories/Locator_Props.v
theories/Lambda_Model.v
theories/Lambda_Spec.v
theories/Lambda_Proofs.v
theories/Lambda_Props.v
theories/Json_Model.v
theories/Json_Proofs.v
theories/Json_Proofs2.v
theories/Settings_Model.v
theories/Settings_Spec.v
theories/Settings_Proofs.v
theories/Settings_Proofs2.v
theories/Settings_Proofs3.v
theories/Settings_Props.v
theories/Factory_Model.v
theories/Factory_Spec.v
theories/Factory_Proofs.v
theories/Factory_Props.v
theories/Cli_Model.v
theories/Cli_Spec.v
theories/Cli_Proofs.v
theories/Cli_Proofs2.v
theories/Cli_Props.v
theories/Install_Model.v
theories/Install_Spec.v
theories/Install_Proofs.v
theories/Install_Props.v
theories/Loader_Model.v
theories/Loader_Spec.v
theories/Loader_Proofs.v
theories/Loader_Props.v
theories/Log_Model.v
theories/Log_Spec.v
theories/Log_Proofs.v
theories/Log_Props.v
theories/Init_Model.v
theories/Init_Spec.v
theories/Init_Proofs.v
theories/Init_Proofs2.v
theories/Init_Props.v
theories/EndToEnd_Model.v
theories/EndToEnd_Spec.v
theories/EndToEnd_Proofs.v
theories/EndToEnd_Proofs2.v
theories/EndToEnd_Proofs3.v
theories/EndToEnd_Examples.v
theories/EndToEnd_Props.v
theories/Float_Model.v
theories/Float_Spec.v
theories/Float_Proofs.v
theories/Float_Proofs2.v
theories/Float_Proofs3.v
theories/Float_Proofs4.v
theories/FloatGrid_Model.v
theories/FloatGrid_Spec.v
theories/FloatGrid_Proofs.v
theories/Float_Props.v
theories/FloatCont_Model.v
theories/FloatCont_Spec.v
theories/FloatCont_Proofs.v
theories/FloatCont_Props.v
theories/FloatEnd_Model.v
theories/FloatEnd_Spec.v
theories/FloatEnd_Proofs.v
theories/FloatEnd_Proofs2.v
theories/FloatEnd_Proofs3.v
theories/FloatEnd_Proofs4.v
theories/FloatEnd_Examples.v
theories/FloatEnd_Lemmas.v
theories/FloatEnd_Lemmas2.v
theories/FloatEnd_Props.v
theories/Arg_Spec.v
theories/Arg_Proofs.v
theories/Arg_Proofs2.v
theories/Arg_Proofs3.v
theories/Arg_Proofs4.v
theories/Arg_Examples.v
theories/Arg_Props.v
theories/Whole_Model.v
theories/Whole_Grid.v
theories/Whole_Entry.v
theories/Whole_Inv.v
theories/Whole_Search.v
theories/Whole_Spec.v
theories/Whole_Proofs.v
theories/Whole_Proofs2.v
theories/Whole_Examples.v
theories/Whole_Props.v
theories/Whole_Proofs3.v
theories/Whole_Stale.v
theories/Whole_Examples2.v
theories/Reuse_Props.v
theories/Main_Model.v
theories/Main_Spec.v
theories/Main_Proofs.v
theories/Main_Proofs2.v
theories/Main_Proofs3.v
theories/Main_Proofs4.v
theories/Main_Proofs5.v
theories/Main_Props.v
theories/Romb_Proofs.v
theories/Moment_Spec.v
theories/Moment_Proofs.v
theories/Moment_Proofs2.v
theories/Moment_Proofs3.v
theories/Moment_Proofs4.v
theories/Moment_Proofs5.v
theories/Moment_Proofs6.v
theories/Moment_Proofs7.v
theories/Moment_Proofs8.v
theories/Moment_Props.v
theories/Qsearch_Model.v
theories/Qsearch_Spec.v
theories/Qsearch_Proofs.v
theories/Qsearch_Proofs2.v
theories/Qsearch_Examples.v
theories/Qsearch_Props.v
theories/Assist_Spec.v
theories/Assist_Proofs.v
theories/Assist_Proofs2.v
theories/Assist_Proofs3.v
theories/Assist_Proofs4.v
theories/Assist_Examples.v
theories/Assist_Props.v
theories/Assoc_Spec.v
theories/Modulus.v
theories/Assoc_Perturb.v
theories/Assoc_Perturb2.v
theories/Assoc_Coeff.v
theories/Assoc_Proofs.v
theories/Assoc_Proofs2.v
theories/Assoc_Proofs3.v
theories/Assoc_Agree.v
theories/Assoc_Proofs4.v
theories/Assoc_Examples.v
theories/Assoc_Props.v
theories/Coupled_Model.v
theories/Coupled_Spec.v
theories/Coupled_Proofs.v
theories/Coupled_Proofs2.v
theories/Coupled_Examples.v
theories/Coupled_Props.v
theories/Argparse_Model.v
theories/Argparse_Spec.v
theories/Argparse_Proofs.v
theories/Argparse_Proofs2.v
theories/Argparse_Proofs3.v
theories/Argparse_Proofs4.v
theories/Argparse_Proofs5.v
theories/Argparse_Proofs6.v
theories/Argparse_Proofs7.v
theories/Argparse_Props.v
theories/Hand_Spec.v
theories/Hand_Proofs.v
theories/Hand_Props.v
theories/Chunk_Model.v
theories/Chunk_Spec.v
theories/Chunk_Proofs.v
theories/Chunk_Frame.v
theories/Chunk_Proofs2.v
theories/Chunk_Proofs3.v
theories/Chunk_Cut.v
theories/Chunk_Cut2.v
theories/Chunk_Quad.v
theories/Chunk_Props.v
theories/Chunk_Cut3.v
theories/Chunk_Loss.v
theories/Chunk_Loss2.v
theories/Chunk_Loss3.v
theories/Chunk_Loss4.v
theories/Chunk_Examples.v
theories/JsonText_Spec.v
theories/JsonText_Proofs.v
theories/JsonText_Proofs2.v
theories/JsonText_Props.v
theories/GridEnd_Model.v
theories/GridEnd_Spec.v
theories/GridEnd_Proofs.v
theories/GridEnd_Proofs2.v
theories/GridEnd_Proofs3.v
theories/GridEnd_Examples.v
theories/GridEnd_Props.v
theories/LogFinder_Model.v
theories/LogFinder_Spec.v
theories/LogFinder_Proofs.v
theories/LogFinder_Props.v
theories/Nan_Model.v
theories/Nan_Spec.v
theories/Nan_Proofs.v
theories/Nan_Proofs2.v
theories/Nan_Proofs3.v
theories/Nan_Props.v
theories/NanRefine_Model.v
theories/NanRefine_Spec.v
theories/NanRefine_Proofs.v
theories/NanRefine_Proofs2.v
theories/NanRefine_Props.v
theories/NanSum_Model.v
theories/NanSum_Spec.v
theories/NanSum_Proofs.v
theories/NanSum_Proofs2.v
theories/NanSum_Proofs3.v
theories/NanSum_Proofs4.v
theories/NanSum_Proofs5.v
theories/NanSum_Props.v
theories/Cost_Spec.v
theories/Cost_Proofs.v
theories/Cost_Props.v
theories/Local_Spec.v
theories/Local_Proofs.v
theories/Local_Proofs2.v
theories/Local_Proofs3.v
theories/Local_Proofs4.v
theories/Local_Props.v
theories/Scale_Spec.v
theories/Scale_Proofs.v
theories/Scale_Props.v
theories/FloatSum_Model.v
theories/FloatSum_Spec.v
theories/FloatSum_Proofs.v
theories/FloatSum_Proofs2.v
theories/FloatSum_Proofs3.v
theories/FloatSum_Props.v
theories/Samples_Spec.v
theories/Samples_Proofs.v
theories/Samples_Proofs2.v
theories/Samples_Proofs3.v
theories/Samples_Props.v
theories/LocalPar_Proofs.v
theories/LocalPar_Props.v
theories/Raise_Model.v
theories/Raise_Spec.v
theories/Raise_Proofs.v
theories/Raise_Proofs2.v
theories/Raise_Proofs3.v
theories/Raise_Proofs4.v
theories/Raise_Proofs5.v
theories/Raise_Props.v
theories/Display_Model.v
theories/Display_Spec.v
theories/Display_Proofs.v
theories/Display_Props.v
theories/Instant_Model.v
theories/Instant_Spec.v
theories/Instant_Proofs.v
theories/Instant_Props.v
theories/CutSearch_Model.v
theories/CutSearch_Proofs.v
theories/CutResume_Proofs.v
theories/CutResume_Proofs2.v
theories/CutResume_Quad.v
theories/CutSearch_Props.v
theories/CutDisplay_Model.v
theories/CutDisplay_Proofs.v
theories/CutDisplay_Props.v
