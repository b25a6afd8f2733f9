-Q theories Verif
theories/Model_Num.v
theories/Model_Hist.v
theories/Model_Utility.v
theories/Model_Template.v
theories/Model_World.v
theories/Spec_Hist.v
theories/Spec_Matrix.v
theories/Spec_Template.v
theories/Proof_Hist.v
theories/Proof_Hist2.v
theories/Proof_Hist3.v
theories/Proof_Matrix.v
theories/Proof_Utility.v
theories/Proof_Linear.v
theories/Proof_Template.v
theories/Proof_Template2.v
theories/Proof_Template3.v
theories/Proof_Template4.v
theories/Prop_Hist.v
theories/Prop_Utility.v
theories/Prop_Template.v
theories/Model_HistHeap.v
theories/Spec_HistHeap.v
theories/Proof_HistHeap.v
theories/Prop_HistHeap.v
theories/Prop_HistHeap2.v
theories/Model_Ops.v
theories/Proof_Monad.v
theories/Proof_World.v
theories/Proof_Eval.v
theories/Spec_World.v
theories/Proof_Route.v
theories/Proof_Names.v
theories/Proof_Unique.v
theories/Prop_World.v
theories/Proof_Update.v
theories/Proof_Yield.v
theories/Prop_Params.v
theories/Spec_Nll.v
theories/Proof_Nll.v
theories/Proof_Valid.v
theories/Prop_Nll.v
theories/Spec_Data.v
theories/Proof_Data.v
theories/Proof_Constr.v
theories/Prop_Data.v
theories/Prop_Asimov.v
theories/Spec_Stale.v
theories/Proof_Stale.v
theories/Prop_Stale.v
theories/Model_Minimizer.v
theories/Model_Fitter.v
theories/Spec_Min.v
theories/Proof_Min.v
theories/Prop_Minimizer.v
theories/Spec_Fit.v
theories/Proof_Fit.v
theories/Proof_Fit2.v
theories/Proof_Fit3.v
theories/Proof_Fit4.v
theories/Prop_Fitter.v
theories/Prop_FitEffect.v
theories/Proof_Pool.v
theories/Proof_Profile.v
theories/Proof_Sig.v
theories/Prop_Profile.v
theories/Prop_Significance.v
theories/Model_Toy.v
theories/Spec_Toy.v
theories/Proof_Toy.v
theories/Proof_Toy2.v
theories/Proof_Toy3.v
theories/Prop_Toy.v
theories/Prop_ToyEx.v
theories/Prop_Linearity.v
theories/Model_LegacyHist.v
theories/Spec_LegacyHist.v
theories/Proof_LegacyHist.v
theories/Prop_LegacyHist.v
theories/Model_Legacy.v
theories/Spec_Legacy.v
theories/Proof_Legacy.v
theories/Proof_Legacy2.v
theories/Proof_Legacy3.v
theories/Proof_Legacy4.v
theories/Proof_Legacy5.v
theories/Prop_Legacy.v
theories/Prop_LegacyNll.v
theories/Prop_LegacyValues.v
theories/Model_Plot.v
theories/Spec_Plot.v
theories/Proof_Plot.v
theories/Proof_Plot2.v
theories/Proof_Plot3.v
theories/Prop_Plot.v
theories/Model_YieldErr.v
theories/Prop_YieldErr.v
theories/Model_Dtype.v
theories/Model_ParamHeap.v
theories/Spec_Dtype.v
theories/Prop_Dtype.v
theories/Model_LegacyPlot.v
theories/Spec_LegacyPlot.v
theories/Prop_LegacyPlot.v
theories/Proof_Freeze.v
theories/Proof_Freeze2.v
theories/Proof_Freeze3.v
theories/Prop_Freeze.v
theories/Model_Hesse.v
theories/Spec_Hesse.v
theories/Prop_Hesse.v
theories/Model_Float.v
theories/Spec_Float.v
theories/Proof_Float.v
theories/Proof_Float2.v
theories/Proof_Float3.v
theories/Prop_Float.v
theories/Model_Scipy.v
theories/Spec_Scipy.v
theories/Prop_Scipy.v
theories/Model_FloatTmpl.v
theories/Proof_Float4.v
theories/Prop_Float2.v
theories/Model_Compat.v
theories/Spec_Compat.v
theories/Spec_Multi.v
theories/Proof_Multi.v
theories/Proof_Multi2.v
theories/Proof_Multi3.v
theories/Proof_Multi4.v
theories/Prop_Multi.v
theories/Prop_Chan.v
theories/Prop_MultiEx.v
theories/Prop_Compat.v
theories/Model_Stats.v
theories/Model_Multi.v
theories/Proof_Gauss.v
theories/Proof_Chi2.v
theories/Prop_Stats.v
theories/Prop_FitEffect2.v
theories/Model_Ieee.v
theories/Prop_Ieee.v
theories/Model_LegacyBuf.v
theories/Spec_LegacyBuf.v
theories/Proof_LegacyBuf.v
theories/Prop_LegacyBuf.v
theories/Prop_Evict.v
theories/Prop_Lru.v
theories/Model_IntWeights.v
theories/Spec_IntWeights.v
theories/Spec_PostFit.v
theories/Proof_IntWeights.v
theories/Prop_IntWeights.v
theories/Model_IntStats.v
theories/Prop_IntStats.v
theories/Prop_PostFit.v
theories/Model_FloatCorr.v
theories/Prop_FloatCorr.v
theories/Model_MultiFit.v
theories/Spec_MultiFit.v
theories/Proof_MultiFit.v
theories/Proof_MultiFit2.v
theories/Prop_MultiFit.v
theories/Model_MultiToy.v
theories/Spec_MultiToy.v
theories/Proof_MultiToy.v
theories/Prop_MultiToy.v
theories/Model_MultiToyAsk.v
theories/Spec_MultiToyAsk.v
theories/Proof_MultiToy2.v
theories/Proof_ToyPar.v
theories/Proof_ToyData.v
theories/Prop_MultiToyAsk.v
theories/Prop_ToyData.v
