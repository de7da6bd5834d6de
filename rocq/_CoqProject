-Q theories Verif

theories/Outcome.v
theories/BitLemmas.v
theories/UtilsModel.v
theories/UtilsSpec.v
theories/UtilsProofs.v
theories/UtilsProperties.v
theories/LoopModel.v
theories/LoopProofs.v
theories/WordsModel.v
theories/WordsSpec.v
theories/WordsProofs.v
theories/DivProofs.v
theories/BigintModel.v
theories/BigintSpec.v
theories/BigintProofs.v
theories/BigintBits.v
theories/BigintBytes.v
theories/BigintClosure.v
theories/BigintClaims.v
theories/BigintProperties.v
theories/NumModel.v
theories/NumProofs.v
theories/NumPow.v
theories/NumLcm.v
theories/NumClaims.v
theories/NumProperties.v
theories/BufferModel.v
theories/BufferSpec.v
theories/BufferProofs.v
theories/BufferConstModel.v
theories/BufferConst.v
theories/BufferProperties.v
theories/MgfModel.v
theories/RsaModel.v
theories/RsaSpec.v
theories/RsaProofs.v
theories/RsaClaims.v
theories/RsaProperties.v
theories/ShaModel.v
theories/ShaSpec.v
theories/ShaProofs.v
theories/ShaProperties.v
theories/KeccakModel.v
theories/KeccakSpec.v
theories/KeccakProofs.v
theories/KeccakSponge.v
theories/KeccakProperties.v
theories/PowmModel.v
theories/PowmProofs.v
theories/PowmArith.v
theories/PowmReduce.v
theories/PowmConv.v
theories/PowmMont.v
theories/PowmSpec.v
theories/PowmMain.v
theories/PowmClaims.v
theories/PowmProperties.v
theories/Residues.v
theories/JacobiSpec.v
theories/Legendre.v
theories/JacobiProofs.v
theories/JacobiProperties.v
theories/FpModel.v
theories/FpSpec.v
theories/FpProofs.v
theories/FpSqrt.v
theories/FpWide.v
theories/FpClaims.v
theories/FpProperties.v
theories/EcGroup.v
theories/EcGroupProofs.v
theories/ZpField.v
theories/EcModel.v
theories/EcSpec.v
theories/EcExact.v
theories/EcScalar.v
theories/EcFeSpec.v
theories/EcTransfer.v
theories/EcCurveModel.v
theories/EcClaims.v
theories/EcLaws.v
theories/EcProperties.v
theories/EcCurveSpec.v
theories/EcCodec.v
theories/EcDecodeSpec.v
theories/EcWide.v
theories/EcCurveClaims.v
theories/EcdsaModel.v
theories/EcdsaSpec.v
theories/EcdsaProofs.v
theories/EcdsaRecover.v
theories/EcdsaClaims.v
theories/EcdsaLong.v
theories/EcdsaExamples.v
theories/EcCurveProperties.v
theories/DecodeProperties.v
theories/EcdsaProperties.v
theories/NamedModel.v
theories/NamedSpec.v
theories/NamedProofs.v
theories/CurveVerify.v
theories/NamedProperties.v
theories/GroupOrder.v
theories/Pocklington.v
theories/Limbs.v
theories/PrimeCert.v
theories/PrimeData.v
theories/CurveCert.v
theories/CurveCertProofs.v
theories/CurveData.v
theories/CurveFacts.v
theories/EcKey.v
theories/Malleable.v
theories/GroupSpec.v
theories/NamedGroup.v
theories/KeyProperties.v
theories/GroupProperties.v
theories/EcSafe.v
theories/EcdsaSafe.v
theories/SafeSpec.v
theories/SafeClaims.v
theories/InvalidCurve.v
theories/SafeProperties.v
theories/ContractModel.v
theories/ContractSpec.v
theories/ContractClaims.v
theories/ContractRsa.v
theories/RsaPssSpec.v
theories/RsaPss.v
theories/ContractNamed.v
theories/ContractProperties.v
theories/PssProperties.v
theories/RecoverSpec.v
theories/RecoverModel.v
theories/RecoverExact.v
theories/ActionProperties.v
theories/BigHeapModel.v
theories/BigHeapSpec.v
theories/BigHeapProofs.v
theories/BigHeapOps.v
theories/BigHeapRest.v
theories/BigHeapMain.v
theories/BigHeapDiv.v
theories/BigHeapClaims.v
theories/BigHeapProperties.v
theories/RawModel.v
theories/RawSpec.v
theories/RawProofs.v
theories/RawLoops.v
theories/RawAlloc.v
theories/RawMul.v
theories/RawAdd.v
theories/RawDiv.v
theories/RawFull.v
theories/RawDivMain.v
theories/RawDivAll.v
theories/RawClaims.v
theories/RawProperties.v
theories/RsaSignSpec.v
theories/RsaSignProofs.v
theories/RsaSignClaims.v
theories/RsaSignProperties.v
theories/BigintExact.v
theories/NafExactSpec.v
theories/NafExact.v
theories/NumExactSpec.v
theories/NumExact.v
theories/EcdsaExactSpec.v
theories/EcdsaExact.v
theories/ExactClaims.v
theories/ExactProperties.v
theories/KeyPairSpec.v
theories/KeyPair.v
theories/KeyPairProperties.v
theories/PowmRawModel.v
theories/PowmRawSpec.v
theories/PowmRaw.v
theories/PowmRawMain.v
theories/PowmRawReduce.v
theories/PowmRawClaims.v
theories/PowmRawProperties.v
theories/PowmHeapModel.v
theories/PowmHeapSpec.v
theories/PowmHeap.v
theories/PowmHeapProperties.v
theories/PowmExp.v
theories/PowmExpProperties.v
theories/ContractExp.v
theories/ContractExpProperties.v
theories/NumFuelModel.v
theories/NumLcmHang.v
theories/NumLcmProperties.v
theories/EcQuotSpec.v
theories/EcQuot.v
theories/EcQuotClaims.v
theories/EcQuotProperties.v
theories/OperatorModel.v
theories/OperatorSpec.v
theories/OperatorClaims.v
theories/OperatorProperties.v
theories/FieldOpModel.v
theories/FieldOpSpec.v
theories/FieldOpClaims.v
theories/FieldOpProperties.v
theories/HexModel.v
theories/HexSpec.v
theories/HexClaims.v
theories/HexNamed.v
theories/HexProperties.v
theories/PointerModel.v
theories/PointerSpec.v
theories/PointerClaims.v
theories/PointerProperties.v
theories/JacPointerModel.v
theories/JacPointerSpec.v
theories/JacPointerClaims.v
theories/JacPointerOrigin.v
theories/JacPointerProperties.v
theories/NegInvSpec.v
theories/NegInvProofs.v
theories/NegInvClaims.v
theories/NegInvProperties.v
theories/TraceModel.v
theories/TraceSpec.v
theories/TraceProofs.v
theories/TraceValue.v
theories/TraceClaims.v
theories/TraceProperties.v
theories/ScriptModel.v
theories/ScriptSpec.v
theories/ScriptProofs.v
theories/ScriptPoints.v
theories/ScriptMul.v
theories/ScriptClaims.v
theories/ScriptNamed.v
theories/ScriptProperties.v
theories/NumSigned.v
theories/JacobiEven.v
theories/NumSignedClaims.v
theories/NumSignedProperties.v
theories/AssertModel.v
theories/AssertSpec.v
theories/AssertProofs.v
theories/AssertRefine.v
theories/AssertSim.v
theories/AssertExact.v
theories/AssertLoops.v
theories/AssertPow.v
theories/AssertClaims.v
theories/AssertProperties.v
theories/DebugEcModel.v
theories/DebugFp.v
theories/DebugSqrt.v
theories/DebugEc.v
theories/DebugMul.v
theories/DebugCurve.v
theories/DebugClaims.v
theories/DebugProperties.v
theories/MulNModel.v
theories/MulNProofs.v
theories/MulNProperties.v
theories/BindProofs.v
theories/BindProperties.v
theories/WholeModel.v
theories/WholeProofs.v
theories/WholeMain.v
theories/WholeProperties.v
theories/WholeView.v
theories/WholeViewProperties.v
theories/RsaMemModel.v
theories/RsaMemProofs.v
theories/RsaMemPss.v
theories/RsaMemClaims.v
theories/RsaMemProperties.v
theories/EvenSpec.v
theories/EvenPowm.v
theories/EvenMem.v
theories/EvenClaims.v
theories/EvenProperties.v
theories/LeadSpec.v
theories/LeadClaims.v
theories/LeadProperties.v
