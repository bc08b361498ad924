-Q theories Verif
theories/Res.v
theories/ResLemmas.v
theories/Fp.v
theories/FSum.v
theories/SpecMle.v
theories/ModelMle.v
theories/MleLemmas.v
theories/MleProofs.v
theories/MleExtra.v
theories/Props_Mle.v
theories/SpecVp.v
theories/SpecPoly.v
theories/PolyLemmas.v
theories/ModelVp.v
theories/VpHist.v
theories/VpProofs.v
theories/VpExtra.v
theories/VpGrow.v
theories/VpDegree.v
theories/Props_Vp.v
theories/ModelTranscript.v
theories/ModelSumcheck.v
theories/SpecSumcheck.v
theories/InterpProofs.v
theories/SumcheckHist.v
theories/SumcheckProofs.v
theories/SumcheckVerify.v
theories/ZerocheckProofs.v
theories/TranscriptProofs.v
theories/SumcheckExtra.v
theories/Props_Sumcheck.v
theories/Pairing.v
theories/ModelKzg.v
theories/SpecKzg.v
theories/KzgHist.v
theories/KzgProofs.v
theories/KzgExtra.v
theories/Props_Kzg.v
theories/SpecBatch.v
theories/ModelBatch.v
theories/BatchProofs.v
theories/BatchHist.v
theories/BatchExtra.v
theories/NodeProofs.v
theories/BatchForge.v
theories/Props_Batch.v
theories/ModelProver.v
theories/ProverHist.v
theories/TmapLemmas.v
theories/ProverProofs.v
theories/ProverExtra.v
theories/SpecTracker.v
theories/ProverStep.v
theories/ModelVerifier.v
theories/ModelAdvice.v
theories/ModelIop.v
theories/VerifierHist.v
theories/SessHist.v
theories/LockProofs.v
theories/EqualizeProofs.v
theories/DegreeProofs.v
theories/CompileProofs.v
theories/CompileExtra.v
theories/CompileHist.v
theories/HistExtra.v
theories/CompileMain.v
theories/CompileSound.v
theories/NodeHist.v
theories/NodeExtra.v
theories/ForgeProofs.v
theories/CopyHist.v
theories/CopyProofs.v
theories/QueryProofs.v
theories/VerifierExtra.v
theories/SpecIop.v
theories/IopHist.v
theories/IopWorld.v
theories/IopInit.v
theories/IopMain.v
theories/IopBasic.v
theories/LogDeriv.v
theories/BagLemmas.v
theories/AdviceProofs.v
theories/IopMulti.v
theories/IopRuns.v
theories/IopSort.v
theories/BindHist.v
theories/IopVer.v
theories/IopSound.v
theories/IopSound2.v
theories/IopGot.v
theories/SortSound.v
theories/IopCheck.v
theories/IopClaims.v
theories/IopFix.v
theories/SpecRel.v
theories/AdviceProofs2.v
theories/AdviceProofs3.v
theories/AdviceProofs4.v
theories/AdviceProofs5.v
theories/CompSound.v
theories/CompSound2.v
theories/CompSound3.v
theories/IopComp.v
theories/SpecJoin.v
theories/IopRes.v
theories/IopComp2.v
theories/IopComp3.v
theories/IopComp4.v
theories/CompClaims.v
theories/CompCheck.v
theories/RelClaims.v
theories/SessProofs.v
theories/IopEx.v
theories/AdviceProofs6.v
theories/Props_Advice.v
theories/CrossProofs.v
theories/IopFull.v
theories/Props_Set.v
theories/CompCheck2.v
theories/PlanHist.v
theories/IopSplit.v
theories/PlanProofs.v
theories/SplitProofs.v
theories/SuppHist.v
theories/SuppProofs.v
theories/MultProofs.v
theories/MultTracker.v
theories/PlanVer.v
theories/CoefProofs.v
theories/Props_Join.v
theories/CrossEval.v
theories/Props_Cross.v
theories/Props_IopBasic.v
theories/Props_IopBag.v
theories/Props_IopSort.v
theories/Props_Prover.v
theories/Props_Verifier.v
theories/Props_Compile.v
theories/Props_Nodes.v
theories/Props_Plan.v
theories/ModelHandles.v
theories/HandleHist.v
theories/HandleProofs.v
theories/HandleFresh.v
theories/HandleCopies.v
theories/Props_Handles.v
theories/CheckHist.v
theories/CheckProofs.v
theories/Props_Check.v
theories/SelHist.v
theories/SelProofs.v
theories/Props_Selectors.v
theories/EndHist.v
theories/EndProofs.v
theories/CheckTotal.v
theories/RoundHist.v
theories/RoundProofs.v
theories/AnswerHist.v
theories/AnswerProofs.v
theories/Props_End.v
theories/Props_Answer.v
theories/BindProofs.v
theories/Props_Bind.v
theories/Props_Split.v
theories/SessionHist.v
theories/SessionProofs.v
theories/SessionRounds.v
theories/SessionSound.v
theories/Props_Session.v
theories/CheckIopHist.v
theories/CheckIop.v
theories/CheckSort.v
theories/CheckSupp.v
theories/CheckDisj.v
theories/CheckSet.v
theories/CheckSet2.v
theories/CheckJoin.v
theories/CheckTransform.v
theories/CheckGroup.v
theories/CheckWeights.v
theories/WholeEx.v
theories/Props_Whole.v
theories/Props_Whole2.v
theories/Props_Whole3.v
theories/Props_Whole4.v
