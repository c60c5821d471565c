-Q theories Verif
theories/Math/Birat.v
theories/Math/Birat2.v
theories/Math/Composite.v
theories/Math/Composite5.v
theories/Math/ECGroup.v
theories/Math/EdComp.v
theories/Math/EdOdd.v
theories/Math/Edwards.v
theories/Math/Excep.v
theories/Math/Fibre.v
theories/Math/FinGroup.v
theories/Math/Fld.v
theories/Math/Gauss.v
theories/Math/Iso2.v
theories/Math/Iso4.v
theories/Math/Iso4Dual.v
theories/Math/IsogHom.v
theories/Math/Limb.v
theories/Math/LimbF.v
theories/Math/MapAlg.v
theories/Math/MontAdd.v
theories/Math/MontB.v
theories/Math/OrderAlg.v
theories/Math/Pock.v
theories/Math/Pow.v
theories/Math/Prime_p25519.v
theories/Math/Prime_p256.v
theories/Math/Prime_p384.v
theories/Math/Prime_p448.v
theories/Math/Prime_p521.v
theories/Math/Prime_pbls.v
theories/Math/Prime_psecp.v
theories/Math/Prime_r25519.v
theories/Math/Prime_r256.v
theories/Math/Prime_r384.v
theories/Math/Prime_r448.v
theories/Math/Prime_r521.v
theories/Math/Prime_rbls.v
theories/Math/Prime_rsecp.v
theories/Math/Quad.v
theories/Math/RCB.v
theories/Math/Residue.v
theories/Math/Roots.v
theories/Math/Zp.v
theories/Model/Benches.v
theories/Model/BigInt.v
theories/Model/CurveExtras.v
theories/Model/Display.v
theories/Model/ECurve.v
theories/Model/FieldExtras.v
theories/Model/Instances.v
theories/Model/MCurve.v
theories/Model/Maps.v
theories/Model/MulTrace.v
theories/Model/OpForms.v
theories/Model/Out.v
theories/Model/PrimeField.v
theories/Model/QuadField.v
theories/Model/QuadHeap.v
theories/Model/RationalMaps.v
theories/Model/Scalar.v
theories/Model/Shared.v
theories/Model/SharedOps.v
theories/Model/SqrtCache.v
theories/Model/WCurve.v
theories/Spec/Accepted.v
theories/Spec/Arith.v
theories/Spec/Benches.v
theories/Spec/CacheState.v
theories/Spec/Clearing.v
theories/Spec/Concurrent.v
theories/Spec/Counting.v
theories/Spec/Curve.v
theories/Spec/DecodeText.v
theories/Spec/EPoints.v
theories/Spec/Elements.v
theories/Spec/Equality.v
theories/Spec/Exceptions.v
theories/Spec/Exprs.v
theories/Spec/Gauss.v
theories/Spec/Instances.v
theories/Spec/IsogBases.v
theories/Spec/Isogeny.v
theories/Spec/Ladder.v
theories/Spec/MPoints.v
theories/Spec/Maps.v
theories/Spec/Membership.v
theories/Spec/Morphisms.v
theories/Spec/Order.v
theories/Spec/Programs.v
theories/Spec/Protocols.v
theories/Spec/RatMaps.v
theories/Spec/Reasons.v
theories/Spec/Roots.v
theories/Spec/Shipped.v
theories/Spec/Text.v
theories/Spec/TwoMaps.v
theories/Spec/WPoints.v
theories/Spec/Wire.v
theories/Spec/WireBlind.v
theories/Proofs/BenchProps.v
theories/Proofs/BlindProps.v
theories/Proofs/BytesP.v
theories/Proofs/CacheProps.v
theories/Proofs/Cert_Ell.v
theories/Proofs/Cert_Hash.v
theories/Proofs/Cert_Iso4.v
theories/Proofs/Cert_Isog.v
theories/Proofs/Cert_Line.v
theories/Proofs/Cert_Order.v
theories/Proofs/ClearP.v
theories/Proofs/ClearProps.v
theories/Proofs/CompProps.v
theories/Proofs/CountEncProps.v
theories/Proofs/CountP.v
theories/Proofs/CurveP.v
theories/Proofs/DecodeTextProps.v
theories/Proofs/DisplayProps.v
theories/Proofs/ECPrime.v
theories/Proofs/EdCompP.v
theories/Proofs/EdEllProps.v
theories/Proofs/EdOddP.v
theories/Proofs/EdwP.v
theories/Proofs/EdwProps.v
theories/Proofs/EncProps.v
theories/Proofs/EqualityProps.v
theories/Proofs/ExcepP.v
theories/Proofs/ExcepProps.v
theories/Proofs/Fibre448Props.v
theories/Proofs/FibreInstProps.v
theories/Proofs/FibreProps.v
theories/Proofs/FieldP.v
theories/Proofs/FieldProps.v
theories/Proofs/HashProps.v
theories/Proofs/ImageProps.v
theories/Proofs/InstP.v
theories/Proofs/InstProps.v
theories/Proofs/InstShip.v
theories/Proofs/Inst_BLS12381G1.v
theories/Proofs/Inst_BLS12381G1_11ISO.v
theories/Proofs/Inst_CURVE25519.v
theories/Proofs/Inst_CURVE448.v
theories/Proofs/Inst_EDWARDS25519.v
theories/Proofs/Inst_EDWARDS448.v
theories/Proofs/Inst_P256.v
theories/Proofs/Inst_P384.v
theories/Proofs/Inst_P521.v
theories/Proofs/Inst_SECP256K1.v
theories/Proofs/Inst_SECP256K1_3ISO.v
theories/Proofs/Iso4P.v
theories/Proofs/IsoHomP.v
theories/Proofs/IsoHomProps.v
theories/Proofs/IsogP.v
theories/Proofs/IsogProps.v
theories/Proofs/LadderP.v
theories/Proofs/LadderProps.v
theories/Proofs/LawProps.v
theories/Proofs/MapsP.v
theories/Proofs/MapsProps.v
theories/Proofs/ModulusProps.v
theories/Proofs/MontBProps.v
theories/Proofs/MontP.v
theories/Proofs/MontProps.v
theories/Proofs/OntoProps.v
theories/Proofs/OpFormsProps.v
theories/Proofs/OrderBls.v
theories/Proofs/OrderP.v
theories/Proofs/OrderProps.v
theories/Proofs/OrderRun.v
theories/Proofs/OrderShip.v
theories/Proofs/OrderTo.v
theories/Proofs/PolyB.v
theories/Proofs/PolyL.v
theories/Proofs/PowLoopProps.v
theories/Proofs/ProgramP.v
theories/Proofs/ProgramProps.v
theories/Proofs/ProtocolRun.v
theories/Proofs/Protocols.v
theories/Proofs/QuadEdgeProps.v
theories/Proofs/QuadHeapProps.v
theories/Proofs/QuadProps.v
theories/Proofs/Rat4Props.v
theories/Proofs/RatP.v
theories/Proofs/RatProps.v
theories/Proofs/ReachProps.v
theories/Proofs/ReasonProps.v
theories/Proofs/RootProps.v
theories/Proofs/ScLaw.v
theories/Proofs/ScLawProps.v
theories/Proofs/ScalarProps.v
theories/Proofs/SerialProps.v
theories/Proofs/SharedP.v
theories/Proofs/SharedProps.v
theories/Proofs/SignProps.v
theories/Proofs/SmallP.v
theories/Proofs/Subgroup.v
theories/Proofs/SubgroupProps.v
theories/Proofs/SubgroupRun.v
theories/Proofs/TextP.v
theories/Proofs/TwoMapsProps.v
theories/Proofs/WeierP.v
theories/Proofs/WeierProps.v
theories/Proofs/WireBlindP.v
theories/Proofs/WireBlindProps.v
theories/Proofs/WireP.v
theories/Proofs/WireProps.v
theories/Properties/Bench.v
theories/Properties/Blind.v
theories/Properties/Cache.v
theories/Properties/Clear.v
theories/Properties/Comp.v
theories/Properties/CountEnc.v
theories/Properties/DecodeText.v
theories/Properties/Display.v
theories/Properties/EdEll.v
theories/Properties/Edw.v
theories/Properties/Enc.v
theories/Properties/Equality.v
theories/Properties/Excep.v
theories/Properties/Fibre.v
theories/Properties/Fibre448.v
theories/Properties/FibreInst.v
theories/Properties/Field.v
theories/Properties/Hash.v
theories/Properties/Image.v
theories/Properties/Inst.v
theories/Properties/IsoHom.v
theories/Properties/Isog.v
theories/Properties/Ladder.v
theories/Properties/Law.v
theories/Properties/Maps.v
theories/Properties/Modulus.v
theories/Properties/Mont.v
theories/Properties/MontB.v
theories/Properties/Onto.v
theories/Properties/OpForms.v
theories/Properties/Order.v
theories/Properties/PowLoop.v
theories/Properties/Program.v
theories/Properties/Quad.v
theories/Properties/QuadEdge.v
theories/Properties/QuadHeap.v
theories/Properties/Rat.v
theories/Properties/Rat4.v
theories/Properties/Reach.v
theories/Properties/Reason.v
theories/Properties/Root.v
theories/Properties/ScLaw.v
theories/Properties/Scalar.v
theories/Properties/Serial.v
theories/Properties/Shared.v
theories/Properties/Sign.v
theories/Properties/Subgroup.v
theories/Properties/TwoMaps.v
theories/Properties/Weier.v
theories/Properties/Wire.v
theories/Properties/WireBlind.v
