-Q theories Verif
theories/Float32.v
theories/Float32b.v
theories/Float32t.v
theories/M_Adam.v
theories/M_Bundle.v
theories/M_Core.v
theories/M_FM.v
theories/M_Files.v
theories/M_Flow.v
theories/M_Kernels.v
theories/M_Mala.v
theories/M_Model.v
theories/M_Net.v
theories/M_PT.v
theories/M_Spline.v
theories/M_Strategies.v
theories/M_Tree.v
theories/MxR.v
theories/Num.v
theories/P_Adam.v
theories/P_Adam1.v
theories/P_Adam2.v
theories/P_Adam3.v
theories/P_Adam4.v
theories/P_Adamw.v
theories/P_Buffer.v
theories/P_Bundle.v
theories/P_Bundle2.v
theories/P_Bundle3.v
theories/P_Bundle4.v
theories/P_Bundle5.v
theories/P_Bundle6.v
theories/P_Bundle7.v
theories/P_Bundle8.v
theories/P_Chain.v
theories/P_Close.v
theories/P_CloseEx.v
theories/P_Closed.v
theories/P_Core.v
theories/P_Cov1.v
theories/P_Cov2.v
theories/P_Cov3.v
theories/P_Data.v
theories/P_Decay.v
theories/P_Erg1.v
theories/P_Erg2.v
theories/P_Erg3.v
theories/P_Erg4.v
theories/P_Errors.v
theories/P_Ext.v
theories/P_FM.v
theories/P_FM2.v
theories/P_FM3.v
theories/P_FM4.v
theories/P_FM5.v
theories/P_FNvp1.v
theories/P_FNvp2.v
theories/P_FNvp3.v
theories/P_FSpline1.v
theories/P_FSpline10.v
theories/P_FSpline11.v
theories/P_FSpline2.v
theories/P_FSpline3.v
theories/P_FSpline4.v
theories/P_FSpline5.v
theories/P_FSpline6.v
theories/P_FSpline7.v
theories/P_FSpline8.v
theories/P_FSpline9.v
theories/P_Fail.v
theories/P_Files.v
theories/P_Files2.v
theories/P_Files3.v
theories/P_Files4.v
theories/P_Flow.v
theories/P_Flow2.v
theories/P_Flow3.v
theories/P_Flow4.v
theories/P_Flow5.v
theories/P_Flow6.v
theories/P_Gauss.v
theories/P_Gauss2.v
theories/P_Grad.v
theories/P_HMC.v
theories/P_HMC2.v
theories/P_Hist1.v
theories/P_Hist2.v
theories/P_Hist3.v
theories/P_Hist4.v
theories/P_Hist5.v
theories/P_Inv1.v
theories/P_Inv2.v
theories/P_Inv3.v
theories/P_Inv4.v
theories/P_Inv5.v
theories/P_Inv6.v
theories/P_Inv7.v
theories/P_InvBad.v
theories/P_InvEx.v
theories/P_InvPT.v
theories/P_InvPT2.v
theories/P_InvPTEx.v
theories/P_Jac.v
theories/P_Kernels.v
theories/P_Kernels2.v
theories/P_Keys.v
theories/P_Keys2.v
theories/P_Kinds.v
theories/P_Kinds2.v
theories/P_Leapfrog.v
theories/P_Lists.v
theories/P_Lln1.v
theories/P_Lln2.v
theories/P_Lln3.v
theories/P_Lln4.v
theories/P_Mala.v
theories/P_Model.v
theories/P_Model2.v
theories/P_Model3.v
theories/P_Model4.v
theories/P_Net.v
theories/P_Net2.v
theories/P_Net3.v
theories/P_Net4.v
theories/P_Net5.v
theories/P_Net6.v
theories/P_Obj.v
theories/P_Obj2.v
theories/P_Obj3.v
theories/P_Order.v
theories/P_Order2.v
theories/P_PT.v
theories/P_PT2.v
theories/P_PT3.v
theories/P_PT4.v
theories/P_PT5.v
theories/P_Par1.v
theories/P_Par2.v
theories/P_ParEx.v
theories/P_Prog1.v
theories/P_Prog2.v
theories/P_Prog3.v
theories/P_Prog4.v
theories/P_Prog5.v
theories/P_Prog6.v
theories/P_Quad.v
theories/P_Quad2.v
theories/P_Rate.v
theories/P_Reach.v
theories/P_Real1.v
theories/P_Real2.v
theories/P_Real3.v
theories/P_Rev1.v
theories/P_Rev2.v
theories/P_Rev3.v
theories/P_Run1.v
theories/P_Run2.v
theories/P_Run3.v
theories/P_Run4.v
theories/P_Sampler.v
theories/P_Shift1.v
theories/P_Shift2.v
theories/P_Shift3.v
theories/P_Single.v
theories/P_Small1.v
theories/P_Small2.v
theories/P_Small3.v
theories/P_Spline.v
theories/P_Spline2.v
theories/P_Spline3.v
theories/P_Steps.v
theories/P_Steps2.v
theories/P_StepsK.v
theories/P_Thin.v
theories/P_Train.v
theories/P_Train2.v
theories/P_Tree1.v
theories/P_Tree10.v
theories/P_Tree11.v
theories/P_Tree12.v
theories/P_Tree13.v
theories/P_Tree14.v
theories/P_Tree2.v
theories/P_Tree3.v
theories/P_Tree4.v
theories/P_Tree5.v
theories/P_Tree6.v
theories/P_Tree7.v
theories/P_Tree8.v
theories/P_Tree9.v
theories/P_URun1.v
theories/P_URun2.v
theories/P_URun3.v
theories/P_UShift.v
theories/P_USpline.v
theories/P_USpline2.v
theories/P_Units1.v
theories/P_Units2.v
theories/P_Warm.v
theories/P_Warm2.v
theories/Prelude.v
theories/Prop_Adam.v
theories/Prop_Args.v
theories/Prop_Bundle.v
theories/Prop_Chain.v
theories/Prop_Close.v
theories/Prop_Core.v
theories/Prop_Cov.v
theories/Prop_Data.v
theories/Prop_Erg.v
theories/Prop_Errors.v
theories/Prop_Ext.v
theories/Prop_FM.v
theories/Prop_FNvp.v
theories/Prop_FSpline.v
theories/Prop_Fail.v
theories/Prop_Files.v
theories/Prop_Flow.v
theories/Prop_Grad.v
theories/Prop_HMC.v
theories/Prop_Hist.v
theories/Prop_Inv.v
theories/Prop_InvBad.v
theories/Prop_InvPT.v
theories/Prop_Kernels.v
theories/Prop_Keys.v
theories/Prop_Kinds.v
theories/Prop_Lln.v
theories/Prop_Mala.v
theories/Prop_Model.v
theories/Prop_Net.v
theories/Prop_Net2.v
theories/Prop_Net3.v
theories/Prop_Obj.v
theories/Prop_Order.v
theories/Prop_Order2.v
theories/Prop_PT.v
theories/Prop_Par.v
theories/Prop_Prog.v
theories/Prop_Quad.v
theories/Prop_Rate.v
theories/Prop_Reach.v
theories/Prop_Real.v
theories/Prop_Rev.v
theories/Prop_Run.v
theories/Prop_Sampler.v
theories/Prop_Shift.v
theories/Prop_Single.v
theories/Prop_Small.v
theories/Prop_Spline.v
theories/Prop_Steps.v
theories/Prop_Thin.v
theories/Prop_Train.v
theories/Prop_Tree.v
theories/Prop_URun.v
theories/Prop_UShift.v
theories/Prop_Units.v
theories/Prop_Warm.v
theories/RNum.v
theories/Spec.v
theories/Spec_Adam.v
theories/Spec_Bundle.v
theories/Spec_Chain.v
theories/Spec_Close.v
theories/Spec_Core.v
theories/Spec_Cov.v
theories/Spec_Data.v
theories/Spec_Erg.v
theories/Spec_Errors.v
theories/Spec_Ext.v
theories/Spec_FM.v
theories/Spec_FNvp.v
theories/Spec_FSpline.v
theories/Spec_Files.v
theories/Spec_Flow.v
theories/Spec_Grad.v
theories/Spec_HMC.v
theories/Spec_Hist.v
theories/Spec_Inv.v
theories/Spec_InvPT.v
theories/Spec_Jac.v
theories/Spec_Kernels.v
theories/Spec_Keys.v
theories/Spec_Kinds.v
theories/Spec_Lln.v
theories/Spec_Mala.v
theories/Spec_Net.v
theories/Spec_NetKeys.v
theories/Spec_Obj.v
theories/Spec_Order.v
theories/Spec_PT.v
theories/Spec_Par.v
theories/Spec_Prog.v
theories/Spec_Quad.v
theories/Spec_Rate.v
theories/Spec_Reach.v
theories/Spec_Real.v
theories/Spec_Rev.v
theories/Spec_Run.v
theories/Spec_Sampler.v
theories/Spec_Shift.v
theories/Spec_Single.v
theories/Spec_Small.v
theories/Spec_Spline.v
theories/Spec_Steps.v
theories/Spec_Thin.v
theories/Spec_Train.v
theories/Spec_Tree.v
theories/Spec_TreeR.v
theories/Spec_URun.v
theories/Spec_UShift.v
theories/Spec_USpline.v
theories/Spec_Units.v
theories/Spec_Warm.v
theories/Toy.v
