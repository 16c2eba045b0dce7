-Q theories Verif
theories/Base.v
theories/ModelParser.v
theories/ModelDiffusion.v
theories/ModelHdf.v
theories/ModelArrhenius.v
theories/ModelBayes.v
theories/SpecBayes.v
theories/ModelAnalyzer.v
theories/Spec.v
theories/SpecParser.v
theories/SpecStats.v
theories/SpecFit.v
theories/SpecAnalyzer.v
theories/SpecHdf.v
theories/SpecSave.v
theories/SpecArrhenius.v
theories/SpecDouble.v
theories/SpecMol.v
theories/SpecRun.v
theories/SpecSym.v
theories/Lemmas.v
theories/ProofsDisp.v
theories/ProofsIntervals.v
theories/ProofsGeom.v
theories/ProofsWindows.v
theories/ProofsParser.v
theories/ProofsTraj.v
theories/ProofsBoot.v
theories/ProofsStats.v
theories/ProofsStats2.v
theories/ProofsCov.v
theories/ProofsFit.v
theories/ProofsFit2.v
theories/ProofsSub.v
theories/ProofsSampler.v
theories/ProofsSym.v
theories/ProofsTime.v
theories/ProofsShape.v
theories/ProofsAnalyzer.v
theories/ProofsHdf.v
theories/ProofsSave.v
theories/ProofsArrhenius.v
theories/ProofsFloat.v
theories/SpecUnwrap.v
theories/ProofsUnwrap.v
theories/ProofsMol.v
theories/ProofsMolTraj.v
theories/SpecOrder.v
theories/ProofsOrder.v
theories/ProofsReplica.v
theories/SpecInterfaces.v
theories/ProofsInterfaces.v
theories/ProofsSpectator.v
theories/ProofsUnion.v
theories/ProofsBayes.v
theories/ProofsCollective.v
theories/PropertiesAnalyzer.v
theories/PropertiesDisp.v
theories/PropertiesParser.v
theories/PropertiesTraj.v
theories/PropertiesStats.v
theories/PropertiesCov.v
theories/PropertiesFit.v
theories/PropertiesRun.v
theories/PropertiesSym.v
theories/PropertiesTime.v
theories/PropertiesOrder.v
theories/PropertiesReplica.v
theories/PropertiesInterfaces.v
theories/PropertiesUnion.v
theories/PropertiesBayes.v
theories/PropertiesCollective.v
theories/SpecGls.v
theories/ProofsGls.v
theories/ProofsUnits.v
theories/PropertiesGls.v
theories/PropertiesUnits.v
theories/SpecPool.v
theories/ProofsPool.v
theories/PropertiesPool.v
theories/ProofsNernst.v
theories/PropertiesNernst.v
theories/SpecGrid.v
theories/ProofsGrid.v
theories/PropertiesGrid.v
theories/SpecRound.v
theories/ProofsRound.v
theories/ProofsSpread.v
theories/PropertiesRound.v
theories/SpecTrue.v
theories/ProofsTrue.v
theories/PropertiesTrue.v
theories/ProofsSuper.v
theories/PropertiesSuper.v
theories/SpecLive.v
theories/ProofsLive.v
theories/PropertiesLive.v
theories/SpecColl.v
theories/ProofsColl.v
theories/PropertiesColl.v
theories/SpecMarkov.v
theories/ProofsMarkov.v
theories/PropertiesMarkov.v
theories/SpecChain.v
theories/ProofsChain.v
theories/PropertiesChain.v
theories/SpecCalib.v
theories/ProofsCalib.v
theories/PropertiesCalib.v
theories/SpecIdeal.v
theories/ProofsIdeal.v
theories/PropertiesIdeal.v
theories/SpecResample.v
theories/ProofsResample.v
theories/PropertiesResample.v
theories/SpecNpt.v
theories/ProofsNpt.v
theories/PropertiesNpt.v
theories/SpecStable.v
theories/ProofsStable.v
theories/PropertiesStable.v
theories/SpecMolList.v
theories/ProofsMolList.v
theories/PropertiesMolList.v
theories/SpecCentres.v
theories/ProofsCentres.v
theories/PropertiesCentres.v
theories/SpecHetero.v
theories/ProofsHetero.v
theories/PropertiesHetero.v
theories/SpecTric.v
theories/ProofsTric.v
theories/PropertiesTric.v
theories/ProofsTricChain.v
theories/PropertiesTricChain.v
theories/SpecLog.v
theories/ProofsLog.v
theories/PropertiesLog.v
theories/ProofsNptObs.v
theories/PropertiesNptObs.v
theories/SpecStart.v
theories/ProofsStart.v
theories/PropertiesStart.v
theories/SpecCollRound.v
theories/ProofsCollRound.v
theories/PropertiesCollRound.v
theories/ProofsCollTric.v
theories/PropertiesCollTric.v
theories/SpecLong.v
theories/ProofsLong.v
theories/ProofsLong2.v
theories/PropertiesLong.v
theories/SpecFitErr.v
theories/ProofsFitErr.v
theories/ProofsFitErr2.v
theories/ProofsFitErr3.v
theories/PropertiesFitErr.v
theories/SpecIntercept.v
theories/ProofsIntercept.v
theories/PropertiesIntercept.v
theories/SpecNeutral.v
theories/ProofsNeutral.v
theories/PropertiesNeutral.v
theories/SpecClock.v
theories/ProofsClock.v
theories/ProofsCoeff.v
theories/PropertiesClock.v
theories/SpecLost.v
theories/ProofsLost.v
theories/ProofsIgnored.v
theories/PropertiesLost.v
theories/SpecLaw.v
theories/ProofsLaw.v
theories/PropertiesLaw.v
theories/SpecModelVar.v
theories/ProofsModelVar.v
theories/PropertiesModelVar.v
theories/SpecCond.v
theories/ProofsCond.v
theories/PropertiesCond.v
theories/SpecPredict.v
theories/ProofsPredict.v
theories/PropertiesPredict.v
theories/SpecCovRound.v
theories/ProofsCovRound.v
theories/PropertiesCovRound.v
theories/SpecCaged.v
theories/ProofsCaged.v
theories/PropertiesCaged.v
theories/ProofsEven.v
theories/PropertiesEven.v
theories/SpecAxes.v
theories/ProofsAxes.v
theories/PropertiesAxes.v
theories/SpecMetro.v
theories/ProofsMetro.v
theories/PropertiesMetro.v
theories/SpecAlias.v
theories/ProofsAlias.v
theories/PropertiesAlias.v
theories/SpecGrowth.v
theories/ProofsGrowth.v
theories/PropertiesGrowth.v
theories/SpecTwice.v
theories/ProofsTwice.v
theories/PropertiesTwice.v
theories/SpecNoise.v
theories/ProofsNoise.v
theories/PropertiesNoise.v
theories/SpecUneven.v
theories/ProofsUneven.v
theories/PropertiesUneven.v
theories/SpecRest.v
theories/ProofsRest.v
theories/PropertiesRest.v
theories/SpecLikely.v
theories/ProofsLikely.v
theories/PropertiesLikely.v
theories/SpecChargeChain.v
theories/ProofsChargeChain.v
theories/PropertiesChargeChain.v
theories/SpecPersist.v
theories/ProofsPersist.v
theories/PropertiesPersist.v
theories/SpecOnsager.v
theories/ProofsOnsager.v
theories/PropertiesOnsager.v
theories/SpecPieces.v
theories/ProofsPieces.v
theories/PropertiesPieces.v
theories/SpecCentreRound.v
theories/ProofsCentreRound.v
theories/ProofsCentrePath.v
theories/PropertiesCentreRound.v
theories/SpecThin.v
theories/ProofsThin.v
theories/PropertiesThin.v
theories/SpecStop.v
theories/ProofsStop.v
theories/PropertiesStop.v
theories/SpecRescale.v
theories/ProofsRescale.v
theories/PropertiesRescale.v
theories/PropertiesSave.v
theories/PropertiesArrhenius.v
theories/PropertiesFloat.v
theories/PropertiesUnwrap.v
theories/PropertiesMol.v
theories/Tests.v
