-Q theories Verif

theories/Base.v
theories/Num.v
theories/Sparse.v
theories/Spec.v
theories/Dataset.v
theories/DatasetProofs.v
theories/DatasetRep.v
theories/PropsData.v
theories/Iterators.v
theories/Algorithms.v
theories/Driver.v
theories/Ranking.v
theories/Distance.v
theories/PropsIter.v
theories/Rounds.v
theories/PropsRun.v
theories/SpecAlg.v
theories/AlgRep.v
theories/AlgRounds.v
theories/AlgTF.v
theories/PropsAlg.v
theories/AlgPack.v
theories/PropsOrd.v
theories/Iso.v
theories/PropsSym.v
theories/PropsSupport.v
theories/Float.v
theories/PropsFloat.v
theories/PropsComp.v
theories/Results.v
theories/PropsResult.v
theories/PyStr.v
theories/Matrix.v
theories/PropsMatrix.v
theories/Supervised.v
theories/PropsAcc.v
theories/PropsSynth.v
theories/Regex.v
theories/Client.v
theories/PropsClient.v
theories/PropsOutput.v
theories/Graph.v
theories/GraphRep.v
theories/PropsGraph.v
theories/PropsLayout.v
theories/PropsColour.v
theories/Front.v
theories/FrontRep.v
theories/PropsCli.v
theories/PropsWeb.v
theories/PropsSafe.v
theories/ExpSum.v
theories/Spectral.v
theories/Conv.v
theories/PropsConv.v
theories/Local.v
theories/PropsMono.v
theories/PropsLocal.v
theories/PropsNonLocal.v
theories/PropsVote64.v
theories/PropsTF64.v
theories/PropsTight.v
theories/PropsStop.v
theories/File.v
theories/PropsFile.v
theories/Png.v
theories/PropsPng.v
theories/PropsCRH.v
theories/PropsCRHStop.v
theories/PropsRename.v
theories/Accuracy.v
theories/PropsAccuracy.v
theories/Experiment.v
theories/PropsExperiment.v
theories/PropsCoherence.v
theories/ConvTest.v
theories/PropsDebug.v
theories/PropsHome.v
theories/PropsAudit.v
theories/PropsMore.v
theories/PropsLaw.v
theories/Args.v
theories/PropsArgs.v
theories/PropsCopies.v
theories/PropsSeeds.v
theories/PropsSynth64.v
theories/WebForm.v
theories/PropsForm.v
theories/WebPage.v
theories/PropsPage.v
theories/WebView.v
theories/PropsView.v
theories/PropsAvlog64.v
theories/PropsCrh64.v
theories/PropsInvest64.v
theories/PropsInvestNaN.v
theories/PropsJson.v
theories/TopEigen.v
theories/PropsVotes.v
theories/PropsVotes64.v
theories/PropsUsums64.v
theories/Mono64.v
theories/PropsMore64.v
theories/PropsTies64.v
theories/Threads.v
theories/PropsThreads.v
theories/PropsTFRange64.v
theories/PropsOrdStop.v
theories/Animator.v
theories/PropsAnimator.v
theories/PropsOrdStop64.v
theories/PropsOrdStop64b.v
theories/WebTabs.v
theories/PropsTabs.v
theories/PropsConv64.v
theories/PropsUsumsStop64.v
theories/Close.v
theories/PropsInvestAcc64.v
theories/PropsUsumsAcc64.v
theories/PropsUsumsRun64.v
