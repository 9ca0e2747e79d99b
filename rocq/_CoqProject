-Q theories Verif
theories/GoBase.v
theories/Spec.v
theories/Xof.v
theories/SpecHash.v
theories/NttTables.v
theories/Util.v
theories/Ntt.v
theories/Encoding.v
theories/Params.v
theories/Falcon.v
theories/PolyRing.v
theories/PolyZ.v
theories/BaseProofs.v
theories/NttProofs.v
theories/NttLen.v
theories/EncodingProofs.v
theories/FalconProofs.v
theories/VerifyProofs.v
theories/VerifyProofs2.v
theories/BytesProofs.v
theories/KeyProofs.v
theories/UtilProofs.v
theories/Examples.v
theories/Witness.v
theories/NttProps.v
theories/Ntrugen.v
theories/PolyEval.v
theories/NtruProofs.v
theories/NtruProofs2.v
theories/NtruProofs3.v
theories/NtruProps.v
theories/WordSize.v
theories/PropsVerify.v
theories/PropsEncoding.v
theories/PropsNtt.v
theories/PropsKeys.v
theories/PropsUtil.v
theories/PropsNtru.v
theories/Float.v
theories/Samplerz.v
theories/SamplerProofs.v
theories/FftTables.v
theories/Fft.v
theories/FftShape.v
theories/SpecFft.v
theories/ExactReal.v
theories/FftProofs.v
theories/RootsProofs.v
theories/Ffsampling.v
theories/KeyGen.v
theories/NoErr.v
theories/KeyGenProofs.v
theories/KeyWitness.v
theories/Binary64.v
theories/B64Proofs.v
theories/PropsSampler.v
theories/SpecBabai.v
theories/FfExact.v
theories/Babai.v
theories/RootsAll.v
theories/RootsTable.v
theories/PropsFft.v
theories/PropsKeyGen.v
theories/Heap.v
theories/HeapFrame.v
theories/HeapRefine.v
theories/HeapKara.v
theories/HeapSolve.v
theories/KeyHeap.v
theories/PropsHeap.v
theories/Keccak.v
theories/Recorded.v
theories/Tests.v
theories/UtilRest.v
theories/UtilRestProofs.v
theories/PropsRest.v
theories/PropsBabai.v
theories/SamplerCount.v
theories/PropsSampler2.v
theories/FloatErr.v
theories/FftErr.v
theories/GramErr.v
theories/PropsFloat.v
theories/GsExact.v
theories/GsBound.v
theories/GsReduce.v
theories/Hang.v
theories/PropsGs.v
theories/CdivErr.v
theories/FftL1.v
theories/QuotErr.v
theories/QuotLoop.v
theories/PropsReduce.v
theories/BigStr.v
theories/PropsRest2.v
theories/IfftAvg.v
theories/CdivGen.v
theories/SqrErr.v
theories/GsFloat.v
theories/GsGram.v
theories/GsDiv.v
theories/GsAcc.v
theories/PropsGsFloat.v
theories/PropsSamp.v
theories/PropsConv.v
theories/PropsLin.v
theories/Lattice.v
theories/PropsBasis.v
theories/HalfGauss.v
theories/PropsGauss.v
theories/ExpPoly.v
theories/PropsExp.v
theories/PropsRand.v
theories/NearPlane.v
theories/PropsSign.v
theories/FfInt.v
theories/PropsFfInt.v
theories/PropsForge.v
theories/PropsUsable.v
theories/PropsUnique.v
theories/Counting.v
theories/Levels.v
theories/GuessLevels.v
theories/GuessRare.v
theories/PropsGuess.v
theories/Tapes.v
theories/PropsTapes.v
theories/PropsSubst.v
theories/PropsCount.v
theories/NormSize.v
theories/PropsDegree.v
theories/PropsForger.v
theories/AnyKeys.v
theories/BadAlg.v
theories/BadGs.v
theories/PropsAnyDegree.v
theories/PropsFuel.v
theories/PropsSame.v
theories/WrongQuot.v
theories/WrongLin.v
theories/WrongTop.v
theories/PropsWrongKey.v
theories/PropsUnsignable.v
