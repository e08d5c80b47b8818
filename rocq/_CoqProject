-Q theories Verif
theories/Base/Array.v
theories/Base/ArrayFacts.v
theories/Base/Heap.v
theories/Base/Mem.v
theories/Base/Outcome.v
theories/Base/RFacts.v
theories/Base/Scalar.v
theories/Base/ScalarF.v
theories/Base/ScalarF32.v
theories/Base/ScalarR.v
theories/Base/Wp.v
theories/Model/Access.v
theories/Model/Allocation.v
theories/Model/Ball.v
theories/Model/Box.v
theories/Model/Cast.v
theories/Model/Color.v
theories/Model/Frenet.v
theories/Model/Frustum.v
theories/Model/Functions.v
theories/Model/InPlace.v
theories/Model/InPlaceMore.v
theories/Model/Interpolation.v
theories/Model/LinearEquations.v
theories/Model/Mat2.v
theories/Model/Mat3.v
theories/Model/Mat34.v
theories/Model/Mat4.v
theories/Model/Plane.v
theories/Model/Quat.v
theories/Model/Shapes.v
theories/Model/Spline.v
theories/Model/Statics.v
theories/Model/Testlib.v
theories/Model/Text.v
theories/Model/Types.v
theories/Model/Vec.v
theories/Spec/AccessSpec.v
theories/Spec/AffineErrorSpec.v
theories/Spec/AliasSpec.v
theories/Spec/AngleSpec.v
theories/Spec/ArraySpec.v
theories/Spec/AxisErrorSpec.v
theories/Spec/BoxErrorSpec.v
theories/Spec/ColorSpec.v
theories/Spec/CompSpec.v
theories/Spec/Curve.v
theories/Spec/CurveSpecMore.v
theories/Spec/EasedSpec.v
theories/Spec/Easing.v
theories/Spec/EasingErrorSpec.v
theories/Spec/FloatSpec.v
theories/Spec/FrustumSpec.v
theories/Spec/GaussSpec.v
theories/Spec/GeomSpec.v
theories/Spec/HeapSpec.v
theories/Spec/History.v
theories/Spec/HitErrorSpec.v
theories/Spec/IeeeSpec.v
theories/Spec/IntErrorSpec.v
theories/Spec/InverseSpec.v
theories/Spec/LerpErrorSpec.v
theories/Spec/LinAlg.v
theories/Spec/LineSpec.v
theories/Spec/MarginSpec.v
theories/Spec/MatSpec.v
theories/Spec/MeetErrorSpec.v
theories/Spec/NumSpec.v
theories/Spec/PlaneErrorSpec.v
theories/Spec/PolarErrorSpec.v
theories/Spec/QuatErrorSpec.v
theories/Spec/QuatSpec.v
theories/Spec/RandomSpec.v
theories/Spec/ShapeSpec.v
theories/Spec/SingleSpec.v
theories/Spec/StaticsSpec.v
theories/Spec/StepSpec.v
theories/Spec/TestlibSpec.v
theories/Spec/TextSpec.v
theories/Spec/TriSpec.v
theories/Spec/TrigSpec.v
theories/Spec/TurnErrorSpec.v
theories/Spec/VecSpec.v
theories/Spec/WholeSpec.v
theories/Proof/Access.v
theories/Proof/AccuracyWitness.v
theories/Proof/Affine.v
theories/Proof/AffineErrorWitness.v
theories/Proof/Aliasing.v
theories/Proof/AliasingArrays.v
theories/Proof/AliasingCalls.v
theories/Proof/AliasingMore.v
theories/Proof/AliasingMoreRefuted.v
theories/Proof/AliasingRefuted.v
theories/Proof/AlongWitness.v
theories/Proof/Angles.v
theories/Proof/AnyScalar.v
theories/Proof/AxisErrorWitness.v
theories/Proof/BallLine.v
theories/Proof/Balls.v
theories/Proof/BoxCases.v
theories/Proof/BoxErrorWitness.v
theories/Proof/BoxHits.v
theories/Proof/BoxMore.v
theories/Proof/BoxRays.v
theories/Proof/Boxes.v
theories/Proof/CastObjects.v
theories/Proof/Casts.v
theories/Proof/ClosedAny.v
theories/Proof/Colors.v
theories/Proof/Components.v
theories/Proof/CurveProofs.v
theories/Proof/EasingErrorWitness.v
theories/Proof/EvaluateProofs.v
theories/Proof/FabsfClose.v
theories/Proof/FloatBoxes.v
theories/Proof/FloatColorError.v
theories/Proof/FloatColors.v
theories/Proof/FloatEasing.v
theories/Proof/FloatFacts.v
theories/Proof/FloatGen.v
theories/Proof/Floats.v
theories/Proof/Frenet.v
theories/Proof/Frusta.v
theories/Proof/FunctionsProofs.v
theories/Proof/GaussAny.v
theories/Proof/GaussJordan.v
theories/Proof/GaussReal.v
theories/Proof/GaussWitness.v
theories/Proof/HeapGauss.v
theories/Proof/HeapProps.v
theories/Proof/HeapSim.v
theories/Proof/HeapSpline.v
theories/Proof/HitErrorWitness.v
theories/Proof/Ieee.v
theories/Proof/IeeeAffine.v
theories/Proof/IeeeAffineMore.v
theories/Proof/IeeeAlong.v
theories/Proof/IeeeArc.v
theories/Proof/IeeeAxis.v
theories/Proof/IeeeAxisMore.v
theories/Proof/IeeeBalls.v
theories/Proof/IeeeBetween.v
theories/Proof/IeeeBoxBalls.v
theories/Proof/IeeeBoxes.v
theories/Proof/IeeeChord.v
theories/Proof/IeeeClosed.v
theories/Proof/IeeeColor.v
theories/Proof/IeeeCurve.v
theories/Proof/IeeeDistance.v
theories/Proof/IeeeEased.v
theories/Proof/IeeeEasing.v
theories/Proof/IeeeError.v
theories/Proof/IeeeFlags.v
theories/Proof/IeeeFrustum.v
theories/Proof/IeeeGauss.v
theories/Proof/IeeeInts.v
theories/Proof/IeeeInverse.v
theories/Proof/IeeeLaws.v
theories/Proof/IeeeLerp.v
theories/Proof/IeeeMat.v
theories/Proof/IeeeMeet.v
theories/Proof/IeeeNorm.v
theories/Proof/IeeeOne.v
theories/Proof/IeeePlane.v
theories/Proof/IeeePolar.v
theories/Proof/IeeeQuat.v
theories/Proof/IeeeQuatOf.v
theories/Proof/IeeeQuatRot.v
theories/Proof/IeeeRandom.v
theories/Proof/IeeeRange.v
theories/Proof/IeeeResponse.v
theories/Proof/IeeeSides.v
theories/Proof/IeeeSlab.v
theories/Proof/IeeeSlerp.v
theories/Proof/IeeeSpline.v
theories/Proof/IeeeStep.v
theories/Proof/IeeeStepCases.v
theories/Proof/IeeeSym.v
theories/Proof/IeeeTestCases.v
theories/Proof/IeeeTests.v
theories/Proof/IeeeTri.v
theories/Proof/IeeeTrig.v
theories/Proof/IeeeTurn.v
theories/Proof/IeeeVec.v
theories/Proof/IeeeWhole.v
theories/Proof/IeeeWitness.v
theories/Proof/IntErrorWitness.v
theories/Proof/InterpolationProofs.v
theories/Proof/LerpErrorWitness.v
theories/Proof/LinAlgFacts.v
theories/Proof/LinearProps.v
theories/Proof/Lines.v
theories/Proof/LocalAxes.v
theories/Proof/MatArr.v
theories/Proof/MatExamples.v
theories/Proof/MatFacts.v
theories/Proof/MatFlags.v
theories/Proof/MatHistory.v
theories/Proof/MatIdentity.v
theories/Proof/MatInverse.v
theories/Proof/MatInverse4.v
theories/Proof/MatMore.v
theories/Proof/MatProofs.v
theories/Proof/MatRotation.v
theories/Proof/MatSlerp.v
theories/Proof/MeetErrorWitness.v
theories/Proof/PiBounds.v
theories/Proof/PlaneErrorWitness.v
theories/Proof/Planes.v
theories/Proof/Polar.v
theories/Proof/PolarErrorWitness.v
theories/Proof/QuatArc.v
theories/Proof/QuatErrorWitness.v
theories/Proof/QuatExamples.v
theories/Proof/QuatMore.v
theories/Proof/QuatProofs.v
theories/Proof/QuatSlerp.v
theories/Proof/SafeSplines.v
theories/Proof/SingleBoxes.v
theories/Proof/SingleColorError.v
theories/Proof/SingleColors.v
theories/Proof/SingleEasing.v
theories/Proof/SingleFacts.v
theories/Proof/Singles.v
theories/Proof/SplineAny.v
theories/Proof/SplineProofs.v
theories/Proof/SplineUnique.v
theories/Proof/StaticsProofs.v
theories/Proof/Testlib.v
theories/Proof/TextNumbers.v
theories/Proof/TextObjects.v
theories/Proof/TriAny.v
theories/Proof/TriCyclic.v
theories/Proof/TriDiagonal.v
theories/Proof/TurnErrorWitness.v
theories/Proof/Vec3Slerp.v
theories/Proof/VecFacts.v
theories/Proof/VecProofs.v
theories/Props/Access.v
theories/Props/Accuracy.v
theories/Props/Affine.v
theories/Props/AffineError.v
theories/Props/Aliasing.v
theories/Props/AliasingMore.v
theories/Props/Allocation.v
theories/Props/Along.v
theories/Props/Angles.v
theories/Props/AxisError.v
theories/Props/Balls.v
theories/Props/BoxError.v
theories/Props/Boxes.v
theories/Props/Casts.v
theories/Props/Colors.v
theories/Props/Components.v
theories/Props/Eased.v
theories/Props/EasingError.v
theories/Props/Floats.v
theories/Props/Frenet.v
theories/Props/Frusta.v
theories/Props/Functions.v
theories/Props/GaussError.v
theories/Props/HitError.v
theories/Props/IntError.v
theories/Props/Interpolation.v
theories/Props/InverseError.v
theories/Props/LerpError.v
theories/Props/Linear.v
theories/Props/Lines.v
theories/Props/Margins.v
theories/Props/Matrices.v
theories/Props/MeetError.v
theories/Props/Parameters.v
theories/Props/PlaneError.v
theories/Props/Planes.v
theories/Props/PolarError.v
theories/Props/QuatError.v
theories/Props/Quats.v
theories/Props/Random.v
theories/Props/Rotations.v
theories/Props/Rounding.v
theories/Props/Safety.v
theories/Props/Singles.v
theories/Props/Slerp.v
theories/Props/Splines.v
theories/Props/Statics.v
theories/Props/StepError.v
theories/Props/Symmetry.v
theories/Props/Testlib.v
theories/Props/Text.v
theories/Props/TurnError.v
theories/Props/Vectors.v
theories/Props/Whole.v
