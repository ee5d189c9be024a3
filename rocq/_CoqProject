-Q theories Verif

theories/Base/BigZp.v
theories/Base/Ext.v
theories/Base/Field.v
theories/Base/Hom.v
theories/Base/Zp.v
theories/Spec/Arith.v
theories/Spec/AtePairing.v
theories/Spec/DhGroups.v
theories/Spec/Digits.v
theories/Spec/Doubles.v
theories/Spec/Edwards.v
theories/Spec/EdwardsWeierstrass.v
theories/Spec/Group.v
theories/Spec/GroupClass.v
theories/Spec/H2c.v
theories/Spec/Joined.v
theories/Spec/Json.v
theories/Spec/LinAlg.v
theories/Spec/MathcompField.v
theories/Spec/Montgomery.v
theories/Spec/Octets.v
theories/Spec/Order.v
theories/Spec/Pairing.v
theories/Spec/PolyQuot.v
theories/Spec/Scalars.v
theories/Spec/Weierstrass.v
theories/Spec/Widths.v
theories/Model/ArithmeticParams.v
theories/Model/CurveParams.v
theories/Model/DomainParams.v
theories/Model/Edwards.v
theories/Model/EdwardsG2.v
theories/Model/FieldParams.v
theories/Model/FieldWidths.v
theories/Model/FinalExp.v
theories/Model/Fp.v
theories/Model/Fp12.v
theories/Model/Fp2.v
theories/Model/Fp3.v
theories/Model/Fp4.v
theories/Model/Fp6_2over3.v
theories/Model/Fp6_3over2.v
theories/Model/Generators.v
theories/Model/H2c.v
theories/Model/Marshalling.v
theories/Model/Matrix.v
theories/Model/MixedOps.v
theories/Model/Montgomery.v
theories/Model/MulGenerators.v
theories/Model/Multiexp.v
theories/Model/NumberTheory.v
theories/Model/Operators.v
theories/Model/Pairing.v
theories/Model/Power.v
theories/Model/Printing.v
theories/Model/Random.v
theories/Model/ScalarMath.v
theories/Model/ScalarMul.v
theories/Model/Shifts.v
theories/Model/Shipped.v
theories/Model/ShortWeierstrass.v
theories/Model/Sqrt.v
theories/Model/Strxor.v
theories/Model/SubgroupCheck.v
theories/Model/Vector.v
theories/Model/WindowTables.v
theories/Model/Wnaf.v
theories/Proof/AbsDouble.v
theories/Proof/ArithmeticOrders.v
theories/Proof/ArithmeticParams.v
theories/Proof/BilinearUse.v
theories/Proof/Bincode.v
theories/Proof/Bls381.v
theories/Proof/BosCoster.v
theories/Proof/Bytes.v
theories/Proof/Conversion.v
theories/Proof/CycClasses.v
theories/Proof/Cyclotomic.v
theories/Proof/DomainParams.v
theories/Proof/Ecpp.v
theories/Proof/EdwardsBilinear.v
theories/Proof/EdwardsDual.v
theories/Proof/EdwardsGroup.v
theories/Proof/EdwardsOps.v
theories/Proof/EdwardsTorsion.v
theories/Proof/EdwardsWeierstrass.v
theories/Proof/ExpDouble.v
theories/Proof/ExpRange.v
theories/Proof/ExpTotal.v
theories/Proof/ExtTheory.v
theories/Proof/FastField.v
theories/Proof/FinalExp.v
theories/Proof/FinalExpZero.v
theories/Proof/FiniteField.v
theories/Proof/FpHelpers.v
theories/Proof/Frob.v
theories/Proof/Frobenius.v
theories/Proof/GaussJordan.v
theories/Proof/GaussLemma.v
theories/Proof/GaussLoops.v
theories/Proof/GaussStep.v
theories/Proof/Generators.v
theories/Proof/GeneratorsEd2.v
theories/Proof/GeneratorsTE.v
theories/Proof/GroupFacts.v
theories/Proof/H2c.v
theories/Proof/H2cBls.v
theories/Proof/Homs.v
theories/Proof/Instances.v
theories/Proof/Json.v
theories/Proof/LimbSeries.v
theories/Proof/Marshalling.v
theories/Proof/Matrix.v
theories/Proof/MillerBilinear.v
theories/Proof/MillerLaws.v
theories/Proof/MontgomeryGroup.v
theories/Proof/Multiexp.v
theories/Proof/NthRoot.v
theories/Proof/NumberTheory.v
theories/Proof/Operators.v
theories/Proof/Order.v
theories/Proof/OrderCheck.v
theories/Proof/PairingA40.v
theories/Proof/PairingBig.v
theories/Proof/PairingBilinear.v
theories/Proof/PairingBls.v
theories/Proof/PairingCore.v
theories/Proof/PairingEd.v
theories/Proof/PairingEdBilinear.v
theories/Proof/PairingEdFull.v
theories/Proof/PairingEdShip.v
theories/Proof/PairingFinal.v
theories/Proof/PairingGen.v
theories/Proof/PairingIdentity.v
theories/Proof/PairingIdentityShip.v
theories/Proof/PairingMap.v
theories/Proof/PairingMiller.v
theories/Proof/PairingMnt.v
theories/Proof/PairingNeg.v
theories/Proof/PairingProj.v
theories/Proof/PairingReduced.v
theories/Proof/PairingShip.v
theories/Proof/PairingValues.v
theories/Proof/PiDigits.v
theories/Proof/Pocklington.v
theories/Proof/PolyEval.v
theories/Proof/Power.v
theories/Proof/PrimesArith.v
theories/Proof/PrimesBrainpool.v
theories/Proof/PrimesEcpp.v
theories/Proof/PrimesMisc.v
theories/Proof/PrimesPairing.v
theories/Proof/PrimesSecp.v
theories/Proof/PrimesX962.v
theories/Proof/Random.v
theories/Proof/ScalarMath.v
theories/Proof/ScalarMul.v
theories/Proof/Shifts.v
theories/Proof/Shipped.v
theories/Proof/ShippedTowers.v
theories/Proof/Sqrt.v
theories/Proof/SqrtDouble.v
theories/Proof/SqrtReal.v
theories/Proof/SqrtShipped.v
theories/Proof/Strxor.v
theories/Proof/Totient.v
theories/Proof/Towers.v
theories/Proof/TwistBilinear.v
theories/Proof/Vector.v
theories/Proof/WeierstrassCoords.v
theories/Proof/WeierstrassGroup.v
theories/Proof/WeierstrassOps.v
theories/Proof/WeierstrassRep.v
theories/Proof/Wnaf.v
theories/Properties/ArithmeticParams.v
theories/Properties/Cyclotomic.v
theories/Properties/DhGroups.v
theories/Properties/DomainParams.v
theories/Properties/Edwards.v
theories/Properties/FieldWidths.v
theories/Properties/Fields.v
theories/Properties/FinalExp.v
theories/Properties/GaussJordan.v
theories/Properties/Generators.v
theories/Properties/H2c.v
theories/Properties/Marshalling.v
theories/Properties/Matrix.v
theories/Properties/Miller.v
theories/Properties/MixedOps.v
theories/Properties/Moduli.v
theories/Properties/MulGenerators.v
theories/Properties/Multiexp.v
theories/Properties/NumberTheory.v
theories/Properties/Operators.v
theories/Properties/Pairing.v
theories/Properties/PairingBilinear.v
theories/Properties/PairingEdwards.v
theories/Properties/PairingEdwardsBilinear.v
theories/Properties/PairingIdentity.v
theories/Properties/Printing.v
theories/Properties/Random.v
theories/Properties/ScalarMath.v
theories/Properties/Shifts.v
theories/Properties/ShippedFields.v
theories/Properties/Sqrt.v
theories/Properties/Strxor.v
theories/Properties/Subgroup.v
theories/Properties/Vector.v
theories/Properties/Weierstrass.v
