-Q theories Verif
theories/Base.v
theories/Num.v
theories/NumLaws.v
theories/Math.v
theories/Collision.v
theories/Manifold.v
theories/Filter.v
theories/ShapeModel.v
theories/CollideModel.v
theories/RTac.v
theories/MathSpec.v
theories/MathProofs.v
theories/GeomSpec.v
theories/ManifoldProofs.v
theories/ShapeSpec.v
theories/ShapeProofs.v
theories/ShapeExamples.v
theories/MathExamples.v
theories/StackModel.v
theories/StackSpec.v
theories/ListFacts.v
theories/TreeModel.v
theories/TreeSpec.v
theories/TreeRep.v
theories/TreeBalance.v
theories/TreeInv.v
theories/TreeOps.v
theories/TreeRebuild.v
theories/TreeValid.v
theories/TreeHist.v
theories/StackProofs.v
theories/TreeQuery.v
theories/TreeRay.v
theories/TreeFinal.v
theories/TreeExamples.v
theories/Prop_Stack.v
theories/Prop_Tree.v
theories/Prop_Math.v
theories/Prop_Shape.v
theories/ListModel.v
theories/ListSpec.v
theories/ListProofs.v
theories/Prop_List.v
theories/BroadModel.v
theories/BroadSpec.v
theories/BroadProofs.v
theories/BroadFinal.v
theories/BroadExamples.v
theories/Prop_Broad.v
theories/DynModel.v
theories/DynSpec.v
theories/DynProofs.v
theories/DynExamples.v
theories/Prop_Dyn.v
theories/WorldModel.v
theories/SolverModel.v
theories/IslandModel.v
theories/SolverSpec.v
theories/SolverProofs.v
theories/SolverReal.v
theories/SolverLcp.v
theories/SolverPos.v
theories/SolverTotal.v
theories/IslandProofs.v
theories/SolverExamples.v
theories/DistModel.v
theories/ToiModel.v
theories/DistSpec.v
theories/DistProofs.v
theories/GjkProofs.v
theories/GjkReal.v
theories/DistChain.v
theories/CastProofs.v
theories/ToiSpec.v
theories/ToiProofs.v
theories/DistExamples.v
theories/DistLast.v
theories/JointModel.v
theories/JointSpec.v
theories/JointProofs.v
theories/JointTotal.v
theories/JointReal.v
theories/JointHeld.v
theories/JointLimit.v
theories/JointExamples.v
theories/WorldGraph.v
theories/WorldSpec.v
theories/WorldGops.v
theories/WorldLogic.v
theories/WorldPhys.v
theories/WorldContact.v
theories/WorldInv.v
theories/WorldOps.v
theories/WorldFix.v
theories/WorldBody.v
theories/WorldLife.v
theories/WorldSet.v
theories/WorldIsland.v
theories/WorldSolve.v
theories/WorldToi.v
theories/WorldStep.v
theories/WorldCalls.v
theories/WorldLock.v
theories/WorldHist.v
theories/WorldClaims.v
theories/WorldFinal.v
theories/WorldAfter.v
theories/WorldNews.v
theories/SafeSpec.v
theories/WorldSafe.v
theories/WorldReach.v
theories/WorldExamples.v
theories/SafeExamples.v
theories/Prop_Safe.v
theories/Prop_Solver.v
theories/Prop_Joint.v
theories/Prop_Dist.v
theories/SerialModel.v
theories/SerialSpec.v
theories/SerialProofs.v
theories/SerialSave.v
theories/SerialFinal.v
theories/SerialVelocity.v
theories/SerialLoad.v
theories/SerialExamples.v
theories/Prop_Serial.v
theories/HullSpec.v
theories/HullProofs.v
theories/HullSet.v
theories/HullMass.v
theories/HullInertia.v
theories/HullRegion.v
theories/HullExamples.v
theories/Prop_Hull.v
theories/CollideSpec.v
theories/PolyCircle.v
theories/EdgeCircle.v
theories/PolyPoly.v
theories/CollideExamples.v
theories/Prop_Collide.v
theories/EdgePolySpec.v
theories/EdgePoly.v
theories/EdgePolyExamples.v
theories/Prop_EdgePoly.v
theories/Prop_World.v
theories/QueryModel.v
theories/CoverSpec.v
theories/CoverLogic.v
theories/CoverOps.v
theories/CoverCalls.v
theories/CoverWorld.v
theories/CoverStep.v
theories/CoverToi.v
theories/QuerySpec.v
theories/RayShapes.v
theories/QueryProofs.v
theories/RayProofs.v
theories/CoverExamples.v
theories/Prop_Cover.v
theories/JointDefModel.v
theories/JointDefSpec.v
theories/JointFresh.v
theories/JointFresh2.v
theories/JointSpeed.v
theories/JointReact.v
theories/JointSpring.v
theories/JointShift.v
theories/JointRope.v
theories/JointSet.v
theories/JointDefExamples.v
theories/Prop_JointDef.v
theories/RopeModel.v
theories/RopeSpec.v
theories/RopeTotal.v
theories/RopeReal.v
theories/RopeLinks.v
theories/RopeBend.v
theories/RopeRest.v
theories/RopeExamples.v
theories/Prop_Rope.v
theories/PairSpec.v
theories/PairLogic.v
theories/PairOps.v
theories/PairStep.v
theories/PairCalls.v
theories/SleepSpec.v
theories/SleepProofs.v
theories/PairFinal.v
theories/PairExamples.v
theories/Prop_Pair.v
theories/FrontSpec.v
theories/FrontProofs.v
theories/OrderProofs.v
theories/NarrowModel.v
theories/NarrowSpec.v
theories/NarrowFacts.v
theories/NarrowProofs.v
theories/FrontReal.v
theories/SenseModel.v
theories/FrontExamples.v
theories/Prop_Front.v
theories/IdSpec.v
theories/IdProofs.v
theories/IdExamples.v
theories/Prop_Ids.v
theories/SenseSpec.v
theories/SenseProofs.v
theories/SenseBox.v
theories/SenseFinal.v
theories/SenseExamples.v
theories/Prop_Sense.v
theories/SolveModel.v
theories/FlightSpec.v
theories/FlightProofs.v
theories/FlightFinal.v
theories/FlightExamples.v
theories/Prop_Flight.v
theories/CrashSpec.v
theories/CrashProofs.v
theories/CrashWorld.v
theories/CrashExamples.v
theories/Prop_Crash.v
theories/TouchSpec.v
theories/TouchProofs.v
theories/TouchFinal.v
theories/TouchExamples.v
theories/Prop_Touch.v
theories/FirmSpec.v
theories/FirmProofs.v
theories/FirmReturn.v
theories/FirmExamples.v
theories/Prop_Firm.v
theories/MassSpec.v
theories/MassProofs.v
theories/MassExamples.v
theories/Prop_Mass.v
theories/StillSpec.v
theories/StillProofs.v
theories/StillExamples.v
theories/Prop_Still.v
theories/GlideSpec.v
theories/GlideProofs.v
theories/GlideExamples.v
theories/Prop_Glide.v
theories/IdleSpec.v
theories/IdleProofs.v
theories/IdleExamples.v
theories/Prop_Idle.v
