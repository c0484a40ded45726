-Q theories Verif
theories/Num.v
theories/PyBase.v
theories/M_Airfoil.v
theories/M_Rotations.v
theories/M_Csys.v
theories/M_Mesher.v
theories/M_Panels.v
theories/M_Velocity.v
theories/M_Solve.v
theories/M_Coefs.v
theories/M_Forces.v
theories/M_Winds.v
theories/M_Vlm.v
theories/M_Interp.v
theories/M_Sail.v
theories/M_Results.v
theories/M_Hull.v
theories/M_Runner.v
theories/M_Plots.v
theories/M_Output.v
theories/ValidationData.v
theories/Validation.v
theories/RNum.v
theories/Spec.v
theories/L_Rot.v
theories/L_Csys.v
theories/P_Rot.v
theories/L_List.v
theories/L_Airfoil.v
theories/P_Airfoil.v
theories/L_Mesh.v
theories/P_Mesh.v
theories/L_Vel.v
theories/L_Vel2.v
theories/L_Biot.v
theories/CNum.v
theories/P_Vel.v
theories/L_Sail.v
theories/L_Sail2.v
theories/P_Sail.v
theories/L_Solve.v
theories/L_Lattice.v
theories/P_Lattice.v
theories/L_Vlm.v
theories/L_Vlm2.v
theories/L_Demo.v
theories/P_Vlm.v
theories/P_Interp.v
theories/L_Angle.v
theories/P_Winds.v
theories/L_Results.v
theories/L_DemoForce.v
theories/L_DemoAft.v
theories/P_Results.v
theories/P_Coefs.v
theories/L_Runner.v
theories/P_Runner.v
theories/P_Aircraft.v
theories/P_Run.v
theories/P_Plots.v
theories/L_Scene.v
theories/P_Scene.v
theories/P_Output.v
theories/L_Tack.v
theories/P_Tack.v
theories/P_Rot2.v
theories/P_Output2.v
theories/L_Scale.v
theories/P_Scale.v
theories/L_ScaleRun.v
theories/P_ScaleRun.v
theories/P_Wing.v
theories/M_SelfCheck.v
theories/P_SelfCheck.v
theories/L_Lift.v
theories/L_Lift2.v
theories/P_Lift.v
theories/L_LiftGeo.v
theories/P_LiftGeo.v
theories/L_LiftRun.v
theories/P_LiftRun.v
theories/L_LiftPlot.v
theories/P_LiftPlot.v
theories/L_Set.v
theories/P_Unloaded.v
theories/M_Spline.v
theories/L_Spline.v
theories/P_Spline.v
theories/P_SplineRun.v
theories/P_Apparent.v
theories/P_Water.v
theories/Double.v
theories/L_Double.v
theories/P_Double.v
theories/P_DoubleRun.v
theories/P_Program.v
theories/L_Near.v
theories/L_NearRot.v
theories/P_DoubleRot.v
theories/P_Induced.v
theories/L_NearLine.v
theories/L_NearMesh.v
theories/L_NearSail.v
theories/L_NearSail2.v
theories/L_NearSail3.v
theories/P_DoubleSail.v
theories/L_NearVel.v
theories/P_DoubleVel.v
theories/P_DoubleFlux.v
theories/L_DemoTwo.v
theories/P_Order.v
theories/L_Accept.v
theories/P_DoubleAccept.v
theories/P_Tables.v
theories/L_Accept2.v
theories/P_DoubleForce.v
theories/M_MeshPlot.v
theories/P_MeshPlot.v
theories/P_DoubleTrue.v
theories/P_Potential.v
theories/P_DoubleSolve.v
theories/P_DoubleLattice.v
theories/P_DoubleExact.v
theories/P_DoubleWind.v
theories/P_DoubleExact2.v
theories/P_DoubleInflow.v
theories/P_DoubleAngle.v
