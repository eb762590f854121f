-Q theories Verif
theories/Base.v
theories/Num.v
theories/NumF64.v
theories/NumList.v
theories/Baseline_model.v
theories/Baseline_spec.v
theories/Baseline_proofs.v
theories/Baseline_proofs2.v
theories/Baseline_props.v
theories/Blackout_model.v
theories/Blackout_spec.v
theories/Blackout_proofs.v
theories/Blackout_props.v
theories/RealSpec.v
theories/Schleiss_model.v
theories/Schleiss_spec.v
theories/Schleiss_proofs.v
theories/Schleiss_props.v
theories/NpOps.v
theories/Libm.v
theories/Itu_table.v
theories/KR_model.v
theories/KR_spec.v
theories/KR_proofs.v
theories/KR_proofs2.v
theories/KR_proofs3.v
theories/KR_props.v
theories/Libm64.v
theories/Spline_spec.v
theories/Spline_proofs.v
theories/Spline_exists.v
theories/Spline_data.v
theories/Spline_cert.v
theories/Spline_itu.v
theories/Pastorek_model.v
theories/Pastorek_spec.v
theories/Pastorek_proofs.v
theories/Pastorek_props.v
theories/Leijnse_model.v
theories/Leijnse_spec.v
theories/Leijnse_proofs.v
theories/Leijnse_props.v
theories/Slab_spec.v
theories/Slab_proofs.v
theories/Slab_props.v
theories/LeijnseObs_model.v
theories/LeijnseObs_spec.v
theories/LeijnseObs_proofs.v
theories/LeijnseObs_props.v
theories/RealStat.v
theories/MinMax_model.v
theories/MinMax_spec.v
theories/MinMax_proofs.v
theories/MinMax_props.v
theories/Median.v
theories/NearbyRain_model.v
theories/NearbyRain_spec.v
theories/NearbyRain_proofs.v
theories/NearbyRain_props.v
theories/Haversine_model.v
theories/Haversine_spec.v
theories/Haversine_proofs.v
theories/Haversine_props.v
theories/NearbyWetdry_model.v
theories/NearbyWetdry_spec.v
theories/NearbyWetdry_proofs.v
theories/NearbyWetdry_props.v
theories/Idw_model.v
theories/Idw_spec.v
theories/Idw_proofs.v
theories/Idw_proofs2.v
theories/Idw_proofs3.v
theories/Idw_props.v
theories/Kriging_model.v
theories/Kriging_spec.v
theories/Kriging_proofs.v
theories/Kriging_props.v
theories/Grid_model.v
theories/Grid_spec.v
theories/Grid_proofs.v
theories/Grid_props.v
theories/Temporal_model.v
theories/Temporal_spec.v
theories/Temporal_proofs.v
theories/Temporal_props.v
theories/Stats_model.v
theories/Stats_spec.v
theories/Stats_proofs.v
theories/Stats_proofs2.v
theories/Stats_proofs3.v
theories/Stats_proofs4.v
theories/Stats_props.v
theories/Wrapper_model.v
theories/Wrapper_spec.v
theories/Wrapper_proofs.v
theories/Wrapper_proofs2.v
theories/Wrapper_proofs3.v
theories/Wrapper_props.v
theories/Mlp_model.v
theories/Mlp_spec.v
theories/Mlp_proofs.v
theories/Mlp_props.v
theories/TfInfer_model.v
theories/TfInfer_spec.v
theories/TfInfer_proofs.v
theories/TfInfer_proofs2.v
theories/TfInfer_proofs3.v
theories/TfInfer_props.v
theories/TfWrap_model.v
theories/TfWrap_spec.v
theories/TfWrap_proofs.v
theories/TfWrap_props.v
theories/TfAffine_spec.v
theories/TfAffine_proofs.v
theories/TfAffine_props.v
theories/Chain_model.v
theories/Chain_spec.v
theories/Chain_proofs.v
theories/Chain_props.v
theories/Shift_spec.v
theories/Shift_proofs.v
theories/Shift_props.v
theories/Grid64_model.v
theories/Grid64_spec.v
theories/Grid64_proofs.v
theories/Grid64_props.v
theories/Local_spec.v
theories/Local_proofs.v
theories/Local_props.v
theories/Cache_model.v
theories/Cache_spec.v
theories/Cache_proofs.v
theories/Cache_proofs2.v
theories/Cache_proofs3.v
theories/Cache_proofs4.v
theories/Cache_props.v
theories/TorchInfer_model.v
theories/TorchInfer_spec.v
theories/TorchInfer_proofs.v
theories/TorchInfer_proofs2.v
theories/TorchInfer_props.v
theories/Stft_model.v
theories/Stft_spec.v
theories/Stft_proofs.v
theories/Stft_proofs2.v
theories/Stft_props.v
theories/Coverage_model.v
theories/Coverage_spec.v
theories/Coverage_proofs.v
theories/Coverage_props.v
theories/Deprecated_model.v
theories/Deprecated_spec.v
theories/Deprecated_proofs.v
theories/Deprecated_props.v
theories/Validator_model.v
theories/Validator_spec.v
theories/Validator_proofs.v
theories/Validator_proofs2.v
theories/Validator_props.v
theories/Io_model.v
theories/Io_spec.v
theories/Io_proofs.v
theories/Io_props.v
theories/MetricSym_proofs.v
theories/MetricSym_props.v
theories/BaselineFloat_spec.v
theories/BaselineFloat_proofs.v
theories/LinearFloat_proofs.v
theories/BaselineFloat_props.v
theories/RefFloat_proofs.v
theories/RefFloat_props.v
theories/Reagg_spec.v
theories/Reagg_proofs.v
theories/Reagg_props.v
theories/KRShape_proofs.v
theories/KRShape_props.v
theories/LinkEnds_spec.v
theories/LinkEnds_proofs.v
theories/LinkEnds_props.v
theories/MetricPool_spec.v
theories/MetricPool_proofs.v
theories/MetricPool_props.v
theories/IdwSym_proofs.v
theories/IdwSym_props.v
theories/BaselineSym_spec.v
theories/BaselineSym_proofs.v
theories/BaselineSym_props.v
theories/Restart_proofs.v
theories/SchleissSym_proofs.v
theories/SchleissSym_props.v
theories/ObsChain_model.v
theories/ObsChain_spec.v
theories/ObsChain_proofs.v
theories/ObsChain_props.v
theories/NearbyChain_model.v
theories/NearbyChain_spec.v
theories/NearbyChain_proofs.v
theories/NearbyChain_props.v
theories/RepoTests.v
theories/Workflow_model.v
theories/Workflow_spec.v
theories/Workflow_proofs.v
theories/Workflow_proofs2.v
theories/Workflow_props.v
theories/RainMap_model.v
theories/RainMap_spec.v
theories/RainMap_proofs.v
theories/RainMap_proofs2.v
theories/RainMap_props.v
theories/BlackoutNb_model.v
theories/BlackoutNb_spec.v
theories/BlackoutNb_proofs.v
theories/BlackoutNb_props.v
theories/Shading_model.v
theories/Shading_spec.v
theories/Shading_proofs.v
theories/Shading_props.v
theories/MlpChain_model.v
theories/MlpChain_spec.v
theories/MlpChain_proofs.v
theories/MlpChain_proofs2.v
theories/MlpChain_props.v
theories/CalcStats_model.v
theories/CalcStats_spec.v
theories/CalcStats_proofs.v
theories/CalcStats_props.v
theories/WaaFloat_spec.v
theories/WaaFloat_proofs.v
theories/WaaFloat_props.v
theories/Ulp64.v
theories/StatsFloat_proofs.v
theories/StatsFloat_props.v
theories/SumFloat_spec.v
theories/SumFloat_proofs.v
theories/SumFloat_props.v
theories/CnnNb_model.v
theories/CnnNb_spec.v
theories/CnnNb_proofs.v
theories/CnnNb_proofs2.v
theories/CnnNb_props.v
theories/HaversineFloat_spec.v
theories/HaversineFloat_proofs.v
theories/HaversineFloat_proofs2.v
theories/HaversineAcc_proofs.v
theories/HaversineAcc_proofs2.v
theories/HaversineFloat_props.v
theories/FloatErr_spec.v
theories/FloatErr_proofs.v
theories/IdwFloat_proofs.v
theories/IdwFloat_props.v
theories/StatsErr_spec.v
theories/StatsErr_proofs.v
theories/StatsErr_props.v
theories/IdwMono_props.v
theories/RainFloat_spec.v
theories/RainFloat_proofs.v
theories/RainFloat_props.v
theories/MinMaxFloat_spec.v
theories/MinMaxFloat_proofs.v
theories/MinMaxFloat_props.v
theories/NearbyFloat_spec.v
theories/NearbyFloat_proofs.v
theories/NearbyFloat_props.v
theories/BaselineErr_proofs.v
theories/BaselineErr_props.v
theories/MetricPoolFloat_proofs.v
theories/MetricPoolFloat_props.v
theories/RollSum_model.v
theories/RollSum_spec.v
theories/RollSum_proofs.v
theories/RollSum_props.v
theories/MinMaxWin_model.v
theories/MinMaxWin_proofs.v
theories/MinMaxWin_props.v
theories/SpecGram_model.v
theories/SpecGram_spec.v
theories/SpecGram_proofs.v
theories/SpecGram_proofs2.v
theories/SpecGram_proofs3.v
theories/SpecGram_proofs4.v
theories/SpecGram_proofs5.v
theories/SpecGram_props.v
theories/Spline_mono.v
theories/KRMono_proofs.v
theories/KRMono_props.v
theories/LinAlg.v
theories/OrdKrige_model.v
theories/OrdKrige_spec.v
theories/OrdKrige_proofs.v
theories/OrdKrige_proofs2.v
theories/OrdKrige_proofs3.v
theories/OrdKrige_props.v
theories/PosDef.v
theories/PosDef2.v
theories/PosDef3.v
theories/PosDef4.v
theories/PosDef5.v
theories/OrdKrigePd_proofs.v
theories/OrdKrigePd_props.v
theories/KrigeWin_model.v
theories/KrigeWin_spec.v
theories/KrigeWin_proofs.v
theories/KrigeWin_proofs2.v
theories/KrigeWin_proofs3.v
theories/KrigeWin_props.v
theories/KrigeDistinct_spec.v
theories/KrigeDistinct_proofs.v
theories/KrigeDistinct_props.v
theories/KrigeNan_spec.v
theories/KrigeNan_proofs.v
theories/KrigeNan_props.v
theories/PathShare_spec.v
theories/PathShare_proofs.v
theories/PathShare_proofs2.v
theories/PathShare_proofs3.v
theories/PathShare_props.v
theories/MetricAffine_spec.v
theories/MetricAffine_proofs.v
theories/MetricAffine_props.v
theories/Grid64Err_spec.v
theories/Grid64Err_proofs.v
theories/Grid64Err_props.v
theories/KrigeUnit_proofs.v
theories/KrigeUnit_props.v
theories/ChainErr_spec.v
theories/ChainErr_proofs.v
theories/ChainErr_proofs2.v
theories/ChainErr_props.v
theories/MeasErr_spec.v
theories/MeasErr_proofs.v
theories/MeasErr_proofs2.v
theories/MeasErr_props.v
theories/NearbyNb_model.v
theories/NearbyNb_spec.v
theories/NearbyNb_proofs.v
theories/NearbyNb_proofs2.v
theories/NearbyNb_props.v
theories/NearbyRobust_spec.v
theories/NearbyRobust_proofs.v
theories/NearbyRobust_props.v
theories/ParamMono_spec.v
theories/ParamMono_proofs.v
theories/ParamMono_props.v
theories/MetricStable_spec.v
theories/MetricStable_proofs.v
theories/MetricStable_props.v
theories/IdwPower_proofs.v
theories/IdwPower_props.v
theories/RainSum_model.v
theories/RainSum_spec.v
theories/RainSum_proofs.v
theories/RainSum_props.v
theories/ShiftFloat_spec.v
theories/ShiftFloat_proofs.v
theories/ShiftFloat_props.v
theories/FillOrder_model.v
theories/FillOrder_spec.v
theories/FillOrder_proofs.v
theories/FillOrder_props.v
theories/NearbyMemory_spec.v
theories/NearbyMemory_proofs.v
theories/NearbyMemory_props.v
theories/Scale64_proofs.v
theories/MetricUnit64_spec.v
theories/MetricUnit64_proofs.v
theories/MetricUnit64_props.v
theories/MinMaxLocal_spec.v
theories/MinMaxLocal_proofs.v
theories/MinMaxLocal_props.v
theories/PastorekFloat_spec.v
theories/PastorekFloat_proofs.v
theories/PastorekFloat_props.v
theories/ReaggFloat_spec.v
theories/ReaggFloat_proofs.v
theories/ReaggFloat_props.v
theories/VarFloat_model.v
theories/VarFloat_spec.v
theories/VarFloat_proofs.v
theories/VarFloat_props.v
theories/MinMaxExact_spec.v
theories/MinMaxExact_proofs.v
theories/MinMaxExact_props.v
theories/IdwSymFloat_spec.v
theories/IdwSymFloat_proofs.v
theories/IdwSymFloat_props.v
theories/IdwAcc_spec.v
theories/IdwAcc_proofs.v
theories/IdwAcc_proofs2.v
theories/IdwAcc_props.v
theories/MetricErr_spec.v
theories/MetricErr_proofs.v
theories/MetricErr_props.v
theories/IdwAccUse_spec.v
theories/IdwAccUse_proofs.v
theories/IdwAccUse_props.v
theories/RainSumFloat_spec.v
theories/RainSumFloat_proofs.v
theories/RainSumFloat_props.v
