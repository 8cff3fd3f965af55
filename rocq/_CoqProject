-Q theories Verif
theories/ZList.v
theories/CSem.v
theories/Params.v
theories/Util.v
theories/UtilSpec.v
theories/UtilProofs.v
theories/Fips202.v
theories/KeccakSpec.v
theories/KeccakProofs.v
theories/ShakeProofs.v
theories/Aes.v
theories/AesSpec.v
theories/AesProofs.v
theories/AesProofs2.v
theories/Fips202x4.v
theories/Fips202x4Proofs.v
theories/PropShake4x.v
theories/PropUtil.v
theories/PropShake.v
theories/PropAes.v
theories/MatrixSpec.v
theories/Macrify.v
theories/MatrixProofs.v
theories/MatrixProofs2.v
theories/EncodeProofs.v
theories/PropMatrix.v
theories/FrodoSpec.v
theories/Kem.v
theories/KemProofs.v
theories/KemWp.v
theories/FrodoFacts.v
theories/PropKem.v
theories/PropKem2.v
theories/Random.v
theories/PropRandom.v
theories/DrbgSpec.v
theories/Rng.v
theories/RngProofs.v
theories/PropRng.v
theories/LowProofs.v
theories/LowKem.v
theories/PropCT.v
theories/Py.v
theories/PyProofs.v
theories/PyKem.v
theories/PropPy.v
theories/Conc.v
theories/ConcProofs.v
theories/ConcAes.v
theories/PropConc.v
theories/ConcKem.v
theories/PackProgProofs.v
theories/ConcKemProofs.v
theories/PropConcKem.v
theories/PropParams.v
theories/FailSpec.v
theories/Tail.v
theories/TailNum.v
theories/PropFail.v
theories/ConcRandom.v
theories/ConcRandomProofs.v
theories/PropConcRandom.v
theories/Str.v
theories/Kat.v
theories/KatSpec.v
theories/KatProofs.v
theories/PropKat.v
theories/TestKem.v
theories/PropTest.v
theories/NistKat.v
theories/PropNist.v
theories/ConcLib.v
theories/ConcLibProofs.v
theories/PropConcLib.v
theories/PropConcRace.v
theories/Process.v
theories/PropProcess.v
theories/WinProcess.v
theories/PropWindows.v
theories/PropWindowsCT.v
theories/PropProcessCT.v
theories/OpenSsl.v
theories/OpenSslProofs.v
theories/PropOpenSsl.v
theories/ConcHist.v
theories/ConcHistProofs.v
theories/PropConcHist.v
theories/ShakeInc.v
theories/PropShakeInc.v
theories/Keccak4x.v
theories/Keccak4xSpec.v
theories/Keccak4xProofs.v
theories/PropKeccak4x.v
theories/Build.v
theories/BuildSpec.v
theories/BuildProofs.v
theories/PropBuild.v
theories/ParMake.v
theories/ParMakeProofs.v
theories/ParResume.v
theories/PropParMake.v
theories/KeygenOverlap.v
theories/PropOverlap.v
theories/ConcRounds.v
theories/ConcRoundsProofs.v
theories/PropConcRounds.v
theories/Fork.v
theories/PropFork.v
theories/PropBind.v
theories/Bench.v
theories/PropBench.v
theories/CrashProofs.v
theories/PropCrash.v
theories/PropCrashLib.v
theories/Relaxed.v
theories/RelaxedProofs.v
theories/PropRelaxed.v
theories/RelaxedRandom.v
theories/PropRelaxedRandom.v
theories/RelaxedLib.v
theories/RelaxedLibProofs.v
theories/PropRelaxedLib.v
theories/PropRelaxedSession.v
theories/Signals.v
theories/SignalsProofs.v
theories/PropSignals.v
theories/PropTestCT.v
theories/PropPyLen.v
theories/RelaxedFair.v
theories/PropRelaxedFair.v
theories/RelaxedHist.v
theories/RelaxedHistProofs.v
theories/PropRelaxedHist.v
theories/PropRelaxedHistFair.v
theories/ByteOrder.v
theories/PropByteOrder.v
theories/KeccakInj.v
theories/Residue.v
theories/ResidueProofs.v
theories/PropResidue.v
theories/RowQueries.v
theories/RowQueriesProofs.v
theories/Queries.v
theories/QueriesProofs.v
theories/PropQueries.v
