-Q theories Verif
theories/PyBase.v
theories/PyBase_Proofs.v
theories/Rnd.v
theories/Rnd_Proofs.v
theories/Utils_Model.v
theories/Spec_Utils.v
theories/Utils_Proofs.v
theories/Properties_Utils.v
theories/ContFrac_Model.v
theories/Spec_ContFrac.v
theories/ContFrac_Proofs.v
theories/ContFrac_Hist.v
theories/ContFrac_Proofs2.v
theories/ContFrac_Est.v
theories/Properties_ContFrac.v
theories/Hashtable_Model.v
theories/Spec_Hashtable.v
theories/Hashtable_Proofs.v
theories/Hashtable_Proofs2.v
theories/Hashtable_Dec.v
theories/Properties_Hashtable.v
theories/Enum_Model.v
theories/Spec_Enum.v
theories/Enum_Proofs.v
theories/Enum_Proofs2.v
theories/Enum_Sparse.v
theories/Enum_Roots.v
theories/Enum_Variants.v
theories/Properties_Enum.v
theories/ULCD_Model.v
theories/Spec_ULCD.v
theories/ULCD_Proofs.v
theories/ULCD_Equiv.v
theories/ULCD_Heap.v
theories/Properties_ULCD.v
theories/ContFrac_Fast.v
theories/Rational_Model.v
theories/Spec_Rational.v
theories/Poly_Lib.v
theories/Rational_Proofs.v
theories/Rational_Obj.v
theories/Rational_Canon.v
theories/Rational_Enum.v
theories/Rational_Latex.v
theories/Properties_Rational.v
theories/MITM_Model.v
theories/Spec_MITM.v
theories/MITM_Build.v
theories/MITM_Build2.v
theories/MITM_Clicks.v
theories/MITM_Filters.v
theories/MITM_Inst.v
theories/Properties_MITM.v
theories/Properties_MITM2.v
theories/Dist_Model.v
theories/Spec_Dist.v
theories/Dist_Proofs.v
theories/Properties_Dist.v
theories/Config_Model.v
theories/Spec_Config.v
theories/Config_Proofs.v
theories/Config_Files.v
theories/Config_Json.v
theories/Config_Round.v
theories/Properties_Config.v
theories/Tools_Model.v
theories/Spec_Tools.v
theories/Tools_Proofs.v
theories/Consts_Model.v
theories/Properties_Tools.v
theories/Results_Model.v
theories/Spec_Results.v
theories/Results_Proofs.v
theories/Properties_Results.v
theories/Main_Model.v
theories/Spec_Main.v
theories/Main_Proofs.v
theories/Properties_Main.v
theories/Progress_Model.v
theories/Spec_Progress.v
theories/Progress_Proofs.v
theories/Properties_Progress.v
theories/Classify_Model.v
theories/Spec_Classify.v
theories/Classify_Proofs.v
theories/Classify_Geo.v
theories/Classify_Round.v
theories/Classify_Sample.v
theories/Properties_Classify.v
theories/Scripts_Model.v
theories/Spec_Scripts.v
theories/Scripts_Proofs.v
theories/Properties_Scripts.v
theories/Properties_Scripts2.v
theories/CF_Limits.v
theories/Errors_Model.v
theories/Spec_Errors.v
theories/Errors_Proofs.v
theories/Properties_Errors.v
theories/Consts_Limits.v
theories/Zeta_Limits.v
theories/Spec_Consts.v
theories/Consts_Proofs.v
theories/Properties_Consts.v
theories/Spec_Nips.v
theories/Nips_Proofs.v
theories/Properties_Nips.v
theories/Legacy_Model.v
theories/Spec_Legacy.v
theories/Legacy_Text.v
theories/Properties_Legacy.v
theories/Legacy_Regex.v
theories/Properties_Legacy2.v
theories/Properties_Legacy3.v
theories/Properties_Legacy4.v
theories/Properties_Classify2.v
theories/Replay_Tests.v
theories/Spec_Search.v
theories/Properties_Search.v
theories/Properties_Interrupt.v
theories/Shipped_Model.v
theories/Shipped_Proofs.v
theories/Properties_Shipped.v
theories/CF_Limits2.v
theories/TestFracs_Model.v
theories/Spec_TestFracs.v
theories/TestFracs_Proofs.v
theories/Properties_TestFracs.v
theories/CF_Limits3.v
theories/Fixtures_Model.v
theories/Fixtures_Proofs.v
theories/Properties_Fixtures.v
theories/Properties_Apery.v
theories/Trig_Model.v
theories/Spec_Trig.v
theories/Trig_Proofs.v
theories/Trig_Error.v
theories/Trig_Tail.v
theories/Trig_Real.v
theories/Trig_Quick.v
theories/Properties_Trig.v
theories/CF_Old.v
theories/OldResults_Model.v
theories/Spec_OldResults.v
theories/OldResults_Proofs.v
theories/Properties_OldResults.v
theories/Spec_Digits.v
theories/Digits_Proofs.v
theories/Properties_Digits.v
theories/CF_Positive.v
theories/Spec_Positive.v
theories/Positive_Proofs.v
theories/Properties_Positive.v
theories/CF_Dominant.v
theories/Spec_Dominant.v
theories/Properties_Dominant.v
theories/Properties_Scaled.v
theories/Ini_Model.v
theories/Spec_Ini.v
theories/Ini_Proofs.v
theories/Ini_Save.v
theories/Properties_Ini.v
theories/IniFiles_Model.v
theories/Properties_IniFiles.v
theories/Csv_Model.v
theories/Spec_Csv.v
theories/Csv_Proofs.v
theories/OldTexts_Model.v
theories/Properties_Csv.v
theories/Properties_Target.v
theories/Spec_IniRefs.v
theories/IniRefs_Proofs.v
theories/Properties_IniRefs.v
theories/Properties_LegacyCsv.v
theories/Spec_CsvRead.v
theories/Properties_CsvRead.v
