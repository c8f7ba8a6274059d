-Q theories Verif
theories/SpecStream.v
theories/LStream.v
theories/MPack.v
theories/MPackTests.v
theories/MAcc.v
theories/MConstr.v
theories/LInj.v
theories/LAcc.v
theories/LBsp.v
theories/SpecMD.v
theories/LMD.v
theories/LMDProps.v
theories/SpecHist.v
theories/LHist.v
theories/LMDStmt.v
theories/PMD.v
theories/SpecKeccak.v
theories/MKeccak.v
theories/LKeccakF.v
theories/LKeccakP.v
theories/LSponge.v
theories/LKeccakBij.v
theories/SpecOctets.v
theories/LGen.v
theories/SpecSponge.v
theories/LSpongeStmt.v
theories/SpecFeeds.v
theories/LFeeds.v
theories/LFeedsStmt.v
theories/SpecSpongeBits.v
theories/LSpongeBits.v
theories/LSpongeCol.v
theories/PSponge.v
theories/SpecWords.v
theories/SpecBlake2b.v
theories/MBlake2b.v
theories/LWords.v
theories/LHaifa.v
theories/LBlake2b.v
theories/LBlake2bBij.v
theories/LBlake2bStmt.v
theories/SpecFeedsBlake.v
theories/LFeedsBlake.v
theories/PFeeds.v
theories/LBlake2bCol.v
theories/PBlake2b.v
theories/LLong.v
theories/SpecBlake2bLong.v
theories/LLongBlake.v
theories/PLong.v
theories/SpecDer.v
theories/MMisc.v
theories/LMisc.v
theories/MHash.v
theories/SpecHash.v
theories/LHash.v
theories/LHashStmt.v
theories/PMisc.v
theories/SpecMDOctets.v
theories/LMDOctets.v
theories/LArith.v
theories/SpecBij.v
theories/SpecRipemd.v
theories/MRipemd.v
theories/LRipemd.v
theories/PRipemd.v
theories/SpecTigerTables.v
theories/SpecTiger.v
theories/MTiger.v
theories/LTigerGen.v
theories/LTiger.v
theories/LTigerStmt.v
theories/LTigerBits.v
theories/PTiger.v
theories/SpecCrc.v
theories/MCrc.v
theories/LCrc.v
theories/SpecXmd.v
theories/MXmd.v
theories/SpecOctetHash.v
theories/SpecXmdHist.v
theories/LXmd.v
theories/LXmdStmt.v
theories/LXmdSep.v
theories/LXmdRange.v
theories/PXmd.v
theories/SpecPedersen.v
theories/MPedersen.v
theories/LPedersen.v
theories/LPedersenStmt.v
theories/LPedersenRel.v
theories/LPedersenWrap.v
theories/PPedersen.v
theories/SpecFgh.v
theories/MFgh.v
theories/LFgh.v
theories/LFghStmt.v
theories/PFgh.v
theories/SpecGrain.v
theories/MGrain.v
theories/LGrain.v
theories/LGrainFast.v
theories/SpecPoseidon.v
theories/MPoseidonTables.v
theories/MPoseidon.v
theories/LPoseidon.v
theories/LPoseidonBij.v
theories/LPoseidonSponge.v
theories/LFermat.v
theories/LPrimes.v
theories/LCrc2.v
theories/PCrc.v
theories/LZp.v
theories/LPoseidonInverse.v
theories/LPoseidonInst.v
theories/LPoseidonStmt.v
theories/LGrainTables.v
theories/LGrainStmt.v
theories/PGrain.v
theories/LPoseidonMDS.v
theories/LPoseidonModel.v
theories/PPoseidon.v
theories/SpecRC.v
theories/MRC.v
theories/LRC.v
theories/LRCStmt.v
theories/PRC.v
theories/SpecH2C.v
theories/MH2CTables.v
theories/MH2C.v
theories/LPrimes381.v
theories/LH2CField.v
theories/LSwu.v
theories/LH2CCert.v
theories/LPoly.v
theories/LIso.v
theories/LVelu.v
theories/LH2C.v
theories/LH2C2.v
theories/LH2CStmt.v
theories/LVeluStmt.v
theories/SpecSha.v
theories/MSha.v
theories/LSha.v
theories/PSha.v
theories/SpecSuites.v
theories/MSuites.v
theories/LSuites.v
theories/PSuites.v
theories/PH2C.v
theories/MAsm.v
theories/MKeccakX86.v
theories/MKeccakArm.v
theories/MKeccakAvx2.v
theories/MKeccakAvx512.v
theories/LAsm.v
theories/LAsmRound.v
theories/LAsmX86.v
theories/LAsmArm.v
theories/LAsmAvx2.v
theories/LAsmAvx512.v
theories/LAsmStmt.v
theories/MKeccakSelect.v
theories/LAsmDigest.v
theories/PAsm.v
theories/MTiming.v
theories/LTiming.v
theories/SpecTiming.v
theories/LTimingRec.v
theories/PTiming.v
theories/PKeccakPlatforms.v
theories/SpecExtend.v
theories/LExtend.v
theories/PExtend.v
theories/SpecCollide.v
theories/LCollide.v
theories/PCollide.v
theories/SpecHost.v
theories/LHost.v
theories/PHost.v
theories/MPedersenDefault.v
theories/LPedersenDefault.v
theories/PPedersenDefault.v
theories/SpecStore.v
theories/MStore.v
theories/LStore.v
theories/PStore.v
theories/LCrcInt.v
theories/PCrcInt.v
theories/LCrcRes.v
theories/PCrcRes.v
theories/SpecCrcOdd.v
theories/LCrcOdd.v
theories/PCrcOdd.v
theories/SpecUniform.v
theories/LUniform.v
theories/PUniform.v
theories/LFew.v
theories/LFewStmt.v
theories/PFew.v
theories/SpecLibrary.v
theories/LLibrary.v
theories/LLibXmd.v
theories/PLibrary.v
theories/MStoreMore.v
theories/LStoreMore.v
theories/SpecPedStore.v
theories/LPedStore.v
theories/PStoreMore.v
theories/SpecThreads.v
theories/MThreads.v
theories/LThreads.v
theories/PThreads.v
theories/SpecThrow.v
theories/MThrow.v
theories/LThrow.v
theories/PThrow.v
theories/SpecObject.v
theories/MObject.v
theories/LObject.v
theories/PObject.v
theories/SpecPosStore.v
theories/MPosStore.v
theories/LPosStore.v
theories/PPosStore.v
theories/SpecAnyUse.v
theories/MObjects.v
theories/LAnyUse.v
theories/LAnyUseStmt.v
theories/PAnyUse.v
theories/SpecSpongeUse.v
theories/MSpongeObjects.v
theories/LSpongeUse.v
theories/LSpongeUseStmt.v
theories/PSpongeUse.v
theories/SpecBlakeUse.v
theories/LBlakeUse.v
theories/PBlakeUse.v
