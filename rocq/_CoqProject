-Q theories Verif
theories/Num.v
theories/PyBase.v
theories/Model_Geometry.v
theories/Spec_Geometry.v
theories/Proofs_Geometry.v
theories/Proofs_Elements.v
theories/Props_Geometry.v
theories/Model_System.v
theories/Spec_System.v
theories/Proofs_Dof.v
theories/Proofs_System.v
theories/Props_System.v
theories/Model_Element.v
theories/Spec_Element.v
theories/Proofs_Element.v
theories/Proofs_Beam.v
theories/Model_Validate.v
theories/Spec_Validate.v
theories/Proofs_Validate.v
theories/Props_Element.v
theories/Proofs_Force.v
theories/Props_Force.v
theories/Model_Moving.v
theories/Spec_Moving.v
theories/Proofs_Moving.v
theories/Proofs_Contact.v
theories/Proofs_Load.v
theories/Props_Moving.v
theories/Model_Train.v
theories/Spec_Train.v
theories/Proofs_Train.v
theories/Proofs_TrainMat.v
theories/Proofs_TrainLoad.v
theories/Proofs_Unbalanced.v
theories/Props_Train.v
theories/Model_Coupled.v
theories/Spec_Coupled.v
theories/Proofs_Coupled.v
theories/Props_Coupled.v
theories/Model_Mesh.v
theories/Spec_Mesh.v
theories/Proofs_Mesh.v
theories/Proofs_Join.v
theories/Proofs_Hinge.v
theories/Props_Mesh.v
theories/Model_DefaultTrains.v
theories/Spec_DefaultTrains.v
theories/Proofs_DefaultTrains.v
theories/Props_DefaultTrains.v
theories/Model_Irregularities.v
theories/Spec_Irregularities.v
theories/Proofs_Irregularities.v
theories/Props_Irregularities.v
theories/Model_Accumulation.v
theories/Spec_Accumulation.v
theories/Proofs_Accumulation.v
theories/Proofs_Classes.v
theories/Proofs_Settle.v
theories/Proofs_LiSelig.v
theories/Proofs_Stages.v
theories/Proofs_Runs.v
theories/Props_Accumulation.v
theories/Model_Swarm.v
theories/Spec_Swarm.v
theories/Proofs_Swarm.v
theories/Props_Swarm.v
theories/Model_Optimisation.v
theories/Spec_Optimisation.v
theories/Proofs_Optimisation.v
theories/Props_Optimisation.v
theories/Model_Kalman.v
theories/Spec_Kalman.v
theories/Proofs_Kalman.v
theories/Props_Kalman.v
theories/Model_Misc.v
theories/Spec_Misc.v
theories/Proofs_Misc.v
theories/Props_Misc.v
theories/Spec_Field.v
theories/Proofs_Field.v
theories/Props_Field.v
theories/Model_Track.v
theories/Spec_Track.v
theories/Proofs_Track.v
theories/Proofs_Assembly.v
theories/Props_Track.v
theories/Spec_Generated.v
theories/Proofs_Generated.v
theories/Props_Generated.v
theories/Spec_Sheets.v
theories/Props_Sheets.v
theories/Model_Run.v
theories/Spec_Run.v
theories/Proofs_Run.v
theories/Props_Run.v
theories/Model_Initial.v
theories/Spec_Initial.v
theories/Props_Initial.v
theories/Model_Profile.v
theories/Spec_Profile.v
theories/Props_Profile.v
theories/Model_Batch.v
theories/Spec_Batch.v
theories/Props_Batch.v
theories/Tests_Model.v
theories/Model_Analytic.v
theories/Spec_Analytic.v
theories/Proofs_Analytic.v
theories/Proofs_Reference.v
theories/Props_Analytic.v
theories/Props_Reference.v
theories/Spec_Chain.v
theories/Proofs_Chain.v
theories/Props_Chain.v
theories/Model_Winkler.v
theories/Spec_Winkler.v
theories/Proofs_Winkler.v
theories/Proofs_Approach.v
theories/Proofs_Bar.v
theories/Props_Winkler.v
theories/Spec_Motion.v
theories/Proofs_Motion.v
theories/Props_Motion.v
theories/Spec_Renumber.v
theories/Proofs_Renumber.v
theories/Props_Renumber.v
theories/Spec_Turn.v
theories/Proofs_Turn.v
theories/Props_Turn.v
theories/Model_CoupledSystem.v
theories/Spec_CoupledSystem.v
theories/Proofs_CoupledSystem.v
theories/Props_CoupledSystem.v
theories/Spec_ContactEnergy.v
theories/Proofs_ContactEnergy.v
theories/Props_ContactEnergy.v
theories/Model_Demo.v
theories/Spec_Demo.v
theories/Props_Demo.v
theories/Model_Hinge.v
theories/Spec_Hinge.v
theories/Props_Hinge.v
theories/Model_TrainMesh.v
theories/Spec_TrainMesh.v
theories/Proofs_TrainMesh.v
theories/Props_TrainMesh.v
theories/Model_TrainSystem.v
theories/Spec_TrainSystem.v
theories/Proofs_TrainSystem.v
theories/Props_TrainSystem.v
theories/Model_CoupledRun.v
theories/Spec_CoupledRun.v
theories/Proofs_CoupledRun.v
theories/Props_CoupledRun.v
theories/Spec_Balance.v
theories/Proofs_Balance.v
theories/Props_Balance.v
theories/Model_BatchScripts.v
theories/Spec_BatchScripts.v
theories/Props_BatchScripts.v
theories/Model_DemoResults.v
theories/Spec_DemoResults.v
theories/Props_DemoResults.v
theories/Props_SoilMatrices.v
theories/Spec_Whole.v
theories/Props_Whole.v
theories/Spec_Structure.v
theories/Proofs_Structure.v
theories/Proofs_Line.v
theories/Props_Structure.v
theories/Spec_Ride.v
theories/Props_Ride.v
theories/Spec_Hinged.v
theories/Proofs_Hinged.v
theories/Props_Hinged.v
theories/Model_SemiRigidResults.v
theories/Spec_SemiRigidResults.v
theories/Props_SemiRigidResults.v
theories/Model_Segments.v
theories/Spec_Segments.v
theories/Props_Segments.v
theories/Spec_Stiffer.v
theories/Proofs_Stiffer.v
theories/Props_Stiffer.v
theories/Spec_Cut.v
theories/Proofs_Cut.v
theories/Props_Cut.v
theories/Model_TrainDict.v
theories/Spec_TrainDict.v
theories/Props_TrainDict.v
theories/Spec_Count.v
theories/Proofs_Count.v
theories/Props_Count.v
theories/Model_Tables.v
theories/Spec_Tables.v
theories/Props_Tables.v
theories/Model_Fit.v
theories/Spec_Fit.v
theories/Props_Fit.v
theories/Model_DemoMain.v
theories/Props_DemoMain.v
theories/Model_FieldSoil.v
theories/Spec_FieldSoil.v
theories/Props_FieldSoil.v
theories/Spec_Mirror.v
theories/Proofs_Mirror.v
theories/Props_Mirror.v
theories/Spec_Opposite.v
theories/Proofs_Opposite.v
theories/Props_Opposite.v
theories/Spec_Units.v
theories/Proofs_Units.v
theories/Props_Units.v
theories/Model_DemoTrack.v
theories/Spec_DemoTrack.v
theories/Props_DemoTrack.v
theories/Props_Sudden.v
theories/Spec_Place.v
theories/Props_Place.v
theories/Spec_Rigid.v
theories/Props_Rigid.v
theories/Spec_Length.v
theories/Proofs_Length.v
theories/Props_Length.v
theories/Spec_Held.v
theories/Props_Held.v
theories/Spec_Halves.v
theories/Props_Halves.v
theories/Spec_Finer.v
theories/Props_Finer.v
theories/Spec_Swifter.v
theories/Props_Swifter.v
theories/Spec_Between.v
theories/Proofs_Between.v
theories/Props_Between.v
theories/Spec_Influence.v
theories/Props_Influence.v
