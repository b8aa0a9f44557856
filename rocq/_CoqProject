-Q theories Verif
theories/ZArithX.v
theories/Fq.v
theories/Outcome.v
theories/Curve.v
theories/Toy.v
theories/Bytes.v
theories/Ecdsa.v
theories/EcdsaProofs.v
theories/PropEcdsa.v
theories/Sigma.v
theories/SigmaProofs.v
theories/PropSigma.v
theories/Vss.v
theories/VssProofs.v
theories/PropVss.v
theories/PropCommit.v
theories/Paillier.v
theories/PaillierProofs.v
theories/ZPow.v
theories/RangeProofs.v
theories/RangeProofsProofs.v
theories/BobProofs.v
theories/Forge.v
theories/RangeExtra.v
theories/PdlSlack.v
theories/PdlSlackProofs.v
theories/PropRange.v
theories/Mta.v
theories/MtaProofs.v
theories/Pdl.v
theories/PdlProofs.v
theories/PropMta.v
theories/TwoParty.v
theories/TwoPartyProofs.v
theories/PropTwoParty.v
theories/Mp.v
theories/MpProofs.v
theories/Gg20Keygen.v
theories/Gg18Keygen.v
theories/KeygenProofs.v
theories/KeygenRun.v
theories/KeygenRunProofs.v
theories/KeygenExtra.v
theories/PropKeygen.v
theories/Gg20Sign.v
theories/SignProofs.v
theories/SignRun.v
theories/SignRunProofs.v
theories/PropSign.v
theories/Gg18Sign.v
theories/Gg18SignProofs.v
theories/Gg18RunProofs.v
theories/PropSign18.v
theories/PropSignChecks.v
theories/Blame.v
theories/BlameProofs.v
theories/PaillierOpen.v
theories/BlameHonest.v
theories/PropBlame.v
theories/Stores.v
theories/RoundSM.v
theories/KeygenSM.v
theories/SignSM.v
theories/SmSpec.v
theories/SmProofs.v
theories/SmSim.v
theories/SmTheory.v
theories/SmFacts.v
theories/SmTags.v
theories/PropSM.v
theories/PropSmNew.v
theories/Manager20.v
theories/M20Spec.v
theories/Manager20Proofs.v
theories/Manager20Facts.v
theories/PropManager20.v
theories/Manager18.v
theories/Manager18Proofs.v
theories/PropManager18.v
theories/Network.v
theories/NetLog.v
theories/NetProofs.v
theories/NetSim.v
theories/PropNetwork.v
theories/SmPanic.v
theories/PropPanic.v
theories/Manager20Fate.v
theories/Manager20Work.v
theories/Clients20.v
theories/Clients20Proofs.v
theories/Clients20Nets.v
theories/SmCause.v
theories/SmCauseSg.v
theories/Clients20Own.v
theories/Clients20Log.v
theories/Clients20Prog.v
theories/Codec.v
theories/PropClients20.v
theories/PropClients20Sign.v
theories/PropClients20Log.v
theories/OnlineSM.v
theories/Clients20Online.v
theories/PropClients20Online.v
theories/Clients18.v
theories/Clients18Proofs.v
theories/Clients18Prog.v
theories/Clients18Rounds.v
theories/Clients18KgProofs.v
theories/PropClients18.v
theories/Clients18SgProofs.v
theories/PropClients18Sign.v
theories/Clients18Ends.v
theories/PropClients18Any.v
theories/ClientMsg.v
theories/PropClientMsg.v
theories/PrimeCert.v
theories/RingPedersen.v
theories/PropRingPedersen.v
theories/PrimeBig.v
theories/CorrectKey.v
theories/PropCorrectKey.v
theories/PropHiding.v
theories/Pocklington.v
theories/Weierstrass.v
theories/Cyclic.v
theories/WCurve.v
theories/Secp256k1.v
theories/PropSecp.v
theories/PropSecpRun.v
theories/PropSecpEdge.v
theories/Segments.v
theories/PropSegments.v
theories/Progress.v
theories/PropProgress.v
theories/Extract.v
theories/PropExtract.v
theories/Reshare.v
theories/PropReshare.v
theories/Reuse.v
theories/PropReuse.v
theories/PropKgPanic.v
theories/PropFixed.v
theories/PropSgPanic.v
theories/PropManual.v
theories/PropMobile.v
theories/PropSplit.v
theories/PropTight.v
theories/Driver.v
theories/PropDriver.v
theories/PropNonce.v
theories/PropProbe.v
theories/PropReplay.v
theories/PropBob.v
theories/Clients20Open.v
theories/Clients20OpenProofs.v
theories/PropOpen.v
theories/Clients20Arrive.v
theories/PropImpostor.v
theories/Clients20Iso.v
theories/PropElsewhere.v
theories/CodecAny.v
theories/PropThree.v
theories/PropProbeMany.v
theories/PropClients18Exact.v
theories/PropClients18Order.v
theories/PropClients18Agree.v
theories/PropClients18Shares.v
theories/PropClients18AgreeKeys.v
theories/PropClients18Delta.v
theories/PropClients18Partial.v
