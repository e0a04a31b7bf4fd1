-Q theories Verif
theories/Py.v
theories/Num.v
theories/Arr.v
theories/Sort.v
theories/Conc.v
theories/S_Neighbors.v
theories/P_Neighbors.v
theories/M_IO.v
theories/M_Hubness.v
theories/P_Hubness.v
theories/P_HubnessMain.v
theories/P_HubnessWide.v
theories/Properties_Hubness.v
theories/S_MP.v
theories/M_MPEmpiric.v
theories/P_F64.v
theories/P_MPEmpiric.v
theories/P_MPEmpiric2.v
theories/P_MPSparse.v
theories/Properties_MP.v
theories/S_SNN.v
theories/M_SNN.v
theories/P_SNN.v
theories/Properties_SNN.v
theories/S_GK.v
theories/M_GK.v
theories/P_GK.v
theories/P_GK2.v
theories/P_GK3.v
theories/Properties_GK.v
theories/S_KNN.v
theories/M_KNN.v
theories/P_KNN.v
theories/P_KNN2.v
theories/P_KNN3.v
theories/P_F1.v
theories/P_KNN4.v
theories/Properties_KNN.v
theories/NumT.v
theories/S_LS.v
theories/M_LS.v
theories/P_LS.v
theories/P_LS2.v
theories/P_LS3.v
theories/Properties_LS.v
theories/P_NICDM.v
theories/Properties_NICDM.v
theories/P_LSSample.v
theories/Properties_LS2.v
theories/NumPow.v
theories/S_Centering.v
theories/M_Dist.v
theories/M_Centering.v
theories/P_Vec.v
theories/P_Centering.v
theories/Properties_Centering.v
theories/P_LCent.v
theories/Properties_LCent.v
theories/P_DSL.v
theories/Properties_DSL.v
theories/S_Utils.v
theories/M_Utils.v
theories/Properties_Utils.v
theories/Properties_IO.v
theories/M_Analysis.v
theories/P_Analysis.v
theories/Properties_Analysis.v
theories/M_HubnessClass.v
theories/P_HubnessClass.v
theories/S_HubnessClass.v
theories/P_HubnessReal.v
theories/P_HubnessClass2.v
theories/P_HubnessClass3.v
theories/Properties_HubnessClass.v
theories/NumF32.v
theories/P_F32.v
theories/M_Approx.v
theories/P_Approx.v
theories/Properties_Approx.v
theories/S_Approx.v
theories/P_KMeans.v
theories/Properties_KMeans.v
theories/P_ApproxFixed.v
theories/Properties_ApproxMP.v
theories/P_ApproxMPG.v
theories/Properties_ApproxMPG.v
theories/P_ApproxLS.v
theories/Properties_ApproxLS.v
theories/S_ApproxDSL.v
theories/P_ApproxDSL.v
theories/Properties_ApproxDSL.v
theories/S_ApproxInit.v
theories/Properties_ApproxInit.v
theories/M_ApproxANN.v
theories/S_ApproxANN.v
theories/P_ApproxANN.v
theories/Properties_ApproxANN.v
theories/Properties_ApproxMPANN.v
theories/P_ApproxANN2.v
theories/Properties_ApproxANN2.v
theories/M_ApproxPredict.v
theories/S_ApproxPredict.v
theories/P_ApproxPredict.v
theories/Properties_ApproxPredict.v
theories/M_Simhub.v
theories/S_Simhub.v
theories/P_Simhub.v
theories/P_Simhub2.v
theories/Properties_Simhub.v
theories/Properties_Simhub2.v
theories/M_MPDist.v
theories/S_MPDist.v
theories/P_MPDist.v
theories/P_MPDist2.v
theories/P_MPDist3.v
theories/P_MPDist4.v
theories/Properties_MPDist.v
theories/Properties_MPDist2.v
theories/M_ID.v
theories/S_ID.v
theories/P_ID.v
theories/Properties_ID.v
theories/Properties_ID2.v
theories/M_SparseKNN.v
theories/S_SparseKNN.v
theories/P_SparseKNN.v
theories/P_SparseKNN2.v
theories/P_SparseKNN3.v
theories/P_SparseKNN4.v
theories/P_SparseKNN5.v
theories/Properties_RPrec.v
theories/P_SparseScore.v
theories/P_SparseScore2.v
theories/Properties_SparseScore.v
theories/Properties_Analysis2.v
theories/M_MPDissim.v
theories/S_MPDissim.v
theories/P_MPDissim.v
theories/P_MPDissim2.v
theories/P_MPDissim3.v
theories/P_MPDissim4.v
theories/P_MPDissim5.v
theories/Properties_MPDissim.v
theories/M_SNNSample.v
theories/P_SNNSample.v
theories/Properties_SNNSample.v
theories/M_LSSparse.v
theories/Properties_LSSparse.v
theories/M_Predict.v
theories/P_Predict.v
theories/Properties_Predict.v
theories/P_MPDist5.v
theories/Properties_MPDist3.v
theories/M_Text.v
theories/S_Text.v
theories/P_Text.v
theories/P_Text2.v
theories/P_Mem.v
theories/P_Mem2.v
theories/Properties_Text.v
theories/P_Skew.v
theories/S_Relabel.v
theories/P_Relabel.v
theories/M_Skew.v
theories/S_Skew.v
theories/P_Skew2.v
theories/Properties_Skew.v
theories/P_Relabel2.v
theories/Properties_Relabel.v
theories/M_Report.v
theories/P_Report.v
theories/Properties_Report.v
theories/M_DSLInt.v
theories/Properties_DSLInt.v
theories/S_Order.v
theories/P_Order.v
theories/Properties_Order.v
theories/M_Lifecycle.v
theories/S_Lifecycle.v
theories/P_Lifecycle.v
theories/Properties_Lifecycle.v
theories/S_LSFloat.v
theories/P_LSFloat.v
theories/Properties_LSFloat.v
theories/S_MPFloat.v
theories/Properties_MPFloat.v
theories/Heap.v
theories/S_Heap.v
theories/S_Session.v
theories/M_InPlace.v
theories/P_Heap.v
theories/P_InPlace.v
theories/P_InPlace2.v
theories/P_InPlace3.v
theories/Properties_InPlace.v
theories/M_Rng.v
theories/P_Rng.v
theories/Properties_Rng.v
theories/S_LSAcc.v
theories/P_LSAcc.v
theories/Properties_LSAcc.v
theories/M_LS32.v
theories/P_LS32.v
theories/Properties_LS32.v
theories/M_IntInput.v
theories/S_IntInput.v
theories/Properties_IntInput.v
theories/M_ApproxWeights.v
theories/S_ApproxWeights.v
theories/P_ApproxWeights.v
theories/Properties_ApproxWeights.v
theories/M_Params.v
theories/S_Params.v
theories/Properties_Params.v
theories/M_Shared.v
theories/S_Shared.v
theories/P_Shared.v
theories/Properties_Shared.v
theories/M_HubnessLife.v
theories/Properties_HubnessLife.v
theories/M_Start.v
theories/P_Start.v
theories/Properties_Start.v
theories/S_NicdmAcc.v
theories/P_NicdmAcc.v
theories/Properties_NicdmAcc.v
theories/M_SkewFloat.v
theories/S_SkewFloat.v
theories/P_SkewFloat.v
theories/Properties_SkewFloat.v
theories/P_CosAcc.v
theories/Properties_CosAcc.v
theories/M_Crash.v
theories/P_Crash.v
theories/Properties_Crash.v
theories/M_Holdout.v
theories/S_Holdout.v
theories/P_Holdout.v
theories/Properties_Holdout.v
theories/M_Chain.v
theories/S_Chain.v
theories/P_Chain.v
theories/Properties_Chain.v
theories/S_Ineq.v
theories/P_Ineq.v
theories/Properties_Ineq.v
theories/Properties_Tight.v
theories/Properties_Unshared.v
theories/S_Metric.v
theories/Properties_Metric.v
theories/S_CentAcc.v
theories/Properties_CentAcc.v
theories/S_Agree.v
theories/Properties_Agree.v
theories/M_CsrRaw.v
theories/S_CsrRaw.v
theories/P_CsrRaw.v
theories/Properties_CsrRaw.v
theories/M_InPlaceSparse.v
theories/S_InPlaceSparse.v
theories/P_InPlaceSparse.v
theories/Properties_InPlaceSparse.v
theories/Properties_Audit.v
theories/M_MPThreads.v
theories/S_MPThreads.v
theories/P_MPThreads.v
theories/P_MPThreads2.v
theories/P_MPThreads3.v
theories/Properties_MPThreads.v
theories/S_SparseGamma.v
theories/Properties_SparseGamma.v
theories/M_MPSpawn.v
theories/Properties_MPSpawn.v
theories/M_HubRng.v
theories/S_HubRng.v
theories/Properties_HubRng.v
theories/M_KnnRng.v
theories/S_KnnRng.v
theories/P_KnnRng.v
theories/Properties_KnnRng.v
theories/S_SparseNaN.v
theories/P_SparseNaN.v
theories/Properties_SparseNaN.v
theories/P_SparseNaN2.v
theories/Properties_SparseNaN2.v
theories/P_KNNAcc.v
theories/Properties_KNNAcc.v
theories/Properties_SampleAcc.v
theories/Properties_CountAcc.v
theories/P_GKAcc.v
theories/Properties_GKAcc.v
theories/M_RPool.v
theories/P_RPool.v
theories/Properties_RPool.v
theories/M_MPKill.v
theories/Properties_MPKill.v
theories/Properties_HubSize.v
theories/Properties_Classes.v
theories/M_FloatLabels.v
theories/Properties_FloatLabels.v
theories/Properties_ManyK.v
theories/P_F1Acc.v
theories/Properties_F1Acc.v
theories/Properties_Outputs.v
theories/M_NegTest.v
theories/Properties_NegTest.v
theories/Properties_RPrecAcc.v
theories/P_MeasAcc.v
theories/Properties_MeasAcc.v
theories/Properties_Remote.v
theories/Properties_Dup.v
theories/Properties_Separated.v
theories/Properties_SepNICDM.v
theories/Properties_Closer.v
theories/Properties_Antihub.v
theories/Properties_LargerK.v
theories/Properties_Group.v
theories/M_SampleZ.v
theories/Properties_SampleZ.v
theories/M_LSSampleZ.v
theories/Properties_LSSampleZ.v
theories/Properties_RPrecExtreme.v
theories/Properties_GroupKNN.v
theories/M_Times.v
theories/Properties_Times.v
theories/Properties_Groups.v
theories/M_ApproxWeightFn.v
theories/Properties_ApproxWeightFn.v
