-Q theories Verif
theories/Base/Word.v
theories/Model/Big.v
theories/Model/Roms.v
theories/Spec/BigSpec.v
theories/Spec/Bytes.v
theories/Proof/BigVal.v
theories/Proof/BigShift.v
theories/Proof/BigBytes.v
theories/Proof/BigMul.v
theories/Proof/BigSqr.v
theories/Proof/BigMonty.v
theories/Proof/BigMontyW.v
theories/Proof/BigMod.v
theories/Proof/Reciprocity.v
theories/Spec/JacobiSpec.v
theories/Proof/BigJacobi.v
theories/Proof/BigInv.v
theories/Proof/BigMisc.v
theories/Proof/BigInv2m.v
theories/Spec/RomSpec.v
theories/Proof/RomCheck.v
theories/Model/Fp.v
theories/Spec/FpSpec.v
theories/Spec/FpProg.v
theories/Proof/NumTheory.v
theories/Proof/FpBase.v
theories/Proof/FpRed.v
theories/Proof/FpOps.v
theories/Proof/FpPow.v
theories/Proof/FpExp.v
theories/Proof/FpSqrt.v
theories/Proof/FpCheck.v
theories/Prop/FpProps.v
theories/Prop/BigProps.v
theories/Prop/JacobiProps.v
theories/Prop/RomProps.v
theories/Base/Arr.v
theories/Model/AesTables.v
theories/Model/Aes.v
theories/Spec/AesSpec.v
theories/Proof/AesBase.v
theories/Proof/AesBlock.v
theories/Proof/AesKey.v
theories/Proof/AesCipher.v
theories/Prop/AesProps.v
theories/Model/Gcm.v
theories/Spec/GcmSpec.v
theories/Proof/GcmBase.v
theories/Proof/GcmCipher.v
theories/Proof/GcmChunk.v
theories/Prop/GcmProps.v
theories/Model/Sha2Tables.v
theories/Model/Sha2.v
theories/Spec/Sha2Spec.v
theories/Proof/Sha2Block.v
theories/Proof/Sha2Stream.v
theories/Proof/Sha2Mac.v
theories/Prop/Sha2Props.v
theories/Model/Sha3.v
theories/Spec/Sha3Spec.v
theories/Proof/Sha3Block.v
theories/Proof/Sha3Stream.v
theories/Prop/Sha3Props.v
theories/Model/Rand.v
theories/Spec/RandSpec.v
theories/Proof/RandProof.v
theories/Prop/RandProps.v
theories/Model/Ecdh.v
theories/Spec/KdfSpec.v
theories/Proof/EcdhSym.v
theories/Proof/EcdhPbkdf.v
theories/Proof/EcdhCbc.v
theories/Prop/EcdhSymProps.v
theories/Model/Rsa.v
theories/Spec/RsaSpec.v
theories/Proof/RsaEnc.v
theories/Prop/RsaEncProps.v
theories/Model/Fp2.v
theories/Model/Fp4.v
theories/Model/Fp12.v
theories/Spec/TowerSpec.v
theories/Spec/TowerRep.v
theories/Proof/FpIv.v
theories/Proof/Fp2Ops.v
theories/Proof/Fp4Step.v
theories/Proof/Fp4Ops.v
theories/Proof/TowerRing.v
theories/Proof/Fp12Ops.v
theories/Proof/Fp12Sparse.v
theories/Proof/TowerInv.v
theories/Proof/Fp12Pow.v
theories/Prop/TowerProps.v
theories/Model/Ecp.v
theories/Spec/CurveSpec.v
theories/Spec/EcpSpec.v
theories/Proof/FieldP.v
theories/Proof/WeierId.v
theories/Proof/Weier.v
theories/Proof/Edw.v
theories/Proof/EcpOps.v
theories/Proof/EcpW.v
theories/Proof/EcpE.v
theories/Proof/EcpBridge.v
theories/Proof/EcpMul.v
theories/Proof/EcpInst.v
theories/Proof/EcpCheck.v
theories/Proof/Pocklington.v
theories/Proof/Primes.v
theories/Proof/CurveFacts.v
theories/Proof/EcpCodec.v
theories/Proof/EcpCodec2.v
theories/Proof/EcpCodec3.v
theories/Spec/ProtoSpec.v
theories/Model/EccProto.v
theories/Proof/RandNum.v
theories/Proof/EcpProto.v
theories/Proof/Ecdsa.v
theories/Proof/EcdsaTop.v
theories/Prop/EcpProps.v
theories/Prop/EcpCodecProps.v
theories/Proof/EcDh.v
theories/Proof/Ecies.v
theories/Proof/SlopesSecp.v
theories/Proof/OrderCert.v
theories/Proof/EcGroupInst.v
theories/Prop/EccProtoProps.v
theories/Proof/BigMulW.v
theories/Proof/BigSqrW.v
theories/Proof/EcpRaw.v
theories/Model/Mpin.v
theories/Model/Ff.v
theories/Spec/FfSpec.v
theories/Proof/FfBase.v
theories/Proof/FfLeaf.v
theories/Proof/FfMul.v
theories/Proof/FfRed.v
theories/Proof/FfMod.v
theories/Proof/FfMont.v
theories/Proof/FfPow.v
theories/Proof/FfInv.v
theories/Spec/RsaKeySpec.v
theories/Proof/RsaProof.v
theories/Prop/RsaProps.v
theories/Spec/MpinSpec.v
theories/Proof/FpWide.v
theories/Model/HashToCurve.v
theories/Model/Bls.v
theories/Spec/XmdSpec.v
theories/Proof/H2cProof.v
theories/Proof/BlsRoms.v
theories/Prop/HashToCurveProps.v
theories/Spec/BlsSpec.v
theories/Proof/BlsG1.v
theories/Proof/BlsInst.v
theories/Prop/BlsProps.v
theories/Proof/PrimeBlsN.v
theories/Model/BlsScheme.v
theories/Spec/BlsSchemeSpec.v
theories/Proof/BlsSchemeProof.v
theories/Prop/BlsSchemeProps.v
theories/Model/NhsTables.v
theories/Model/Nhs.v
theories/Spec/NhsSpec.v
theories/Proof/NhsRed.v
theories/Proof/NhsNtt.v
theories/Proof/NhsRing.v
theories/Proof/NhsCodec.v
theories/Proof/NhsApi.v
theories/Prop/NhsProps.v
theories/Spec/SswuSpec.v
theories/Model/Sswu.v
theories/Proof/SswuMath.v
theories/Proof/SswuFp.v
theories/Model/Iso.v
theories/Spec/IsoSpec.v
theories/Proof/PolyCheck.v
theories/Proof/IsoCert.v
theories/Proof/IsoMath.v
theories/Proof/IsoProof.v
theories/Proof/SswuInst.v
theories/Spec/Sswu2Spec.v
theories/Model/Sswu2.v
theories/Proof/Fp2MulW.v
theories/Proof/Fp2Sqrt.v
theories/Proof/Sswu2Math.v
theories/Proof/Sswu2Fp.v
theories/Proof/Sswu2Inst.v
theories/Prop/Sswu2Props.v
theories/Spec/HashG1Spec.v
theories/Proof/HashG1.v
theories/Prop/SswuProps.v
theories/Proof/MapIt.v
theories/Proof/MpinProof.v
theories/Proof/SlopesMpin.v
theories/Proof/MpinInst.v
theories/Prop/MpinProps.v
theories/Model/Ecp2.v
theories/Model/BlsG2.v
theories/Spec/G2Spec.v
theories/Spec/Ecp2Spec.v
theories/Proof/BigMontyN.v
theories/Proof/Ecp2Ops.v
theories/Proof/BlsG2.v
theories/Proof/BlsG2Dec.v
theories/Proof/BlsG2Top.v
theories/Prop/BlsG2Props.v
theories/Model/Ecp2Mul.v
theories/Spec/G2Sum.v
theories/Spec/G2Curve.v
theories/Proof/WeierK.v
theories/Proof/Field2.v
theories/Proof/G2Bridge.v
theories/Proof/Ecp2Add.v
theories/Proof/Ecp2Group.v
theories/Proof/Ecp2MulG.v
theories/Proof/Ecp2Inst.v
theories/Prop/G2GroupProps.v
theories/Model/G1Mul.v
theories/Proof/SlopesBls.v
theories/Proof/G1Cert.v
theories/Proof/Glv.v
theories/Proof/G1MulProof.v
theories/Prop/G1MulProps.v
theories/Proof/KerCount.v
theories/Proof/G1Exact.v
theories/Prop/G1ExactProps.v
theories/Model/BlsG1Grp.v
theories/Proof/G1Grp.v
theories/Model/BlsKeyPair.v
theories/Prop/BlsG1Props.v
