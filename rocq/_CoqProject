-Q theories Verif
theories/Model_Vk.v
theories/Model_Sort.v
theories/Spec_Sort.v
theories/Proof_Sort.v
theories/Props_Sort.v
theories/Model_Group.v
theories/Spec_Group.v
theories/Proof_Group.v
theories/Props_Group.v
theories/Model_Layout.v
theories/Spec_Layout.v
theories/Proof_Layout.v
theories/Props_Layout.v
theories/Model_Attach.v
theories/Spec_Attach.v
theories/Proof_Attach.v
theories/Props_Attach.v
theories/Model_Record.v
theories/Spec_Record.v
theories/Proof_Record.v
theories/Props_Record.v
theories/Model_Deps.v
theories/Spec_Deps.v
theories/Proof_Deps.v
theories/Proof_Graph.v
theories/Proof_Graph2.v
theories/Props_Deps.v
theories/Model_Res.v
theories/Spec_Res.v
theories/Proof_Res.v
theories/Proof_Res2.v
theories/Proof_Res3.v
theories/Proof_Res4.v
theories/Props_Res.v
theories/Model_Run.v
theories/Spec_Run.v
theories/Proof_Run.v
theories/Proof_Run2.v
theories/Proof_Run3.v
theories/Props_Run.v
theories/Model_Float.v
theories/Spec_Float.v
theories/Proof_Float.v
theories/Model_Timer.v
theories/Spec_Timer.v
theories/Proof_Timer.v
theories/Props_Timer.v
theories/Model_Signal.v
theories/Spec_Signal.v
theories/Proof_Signal.v
theories/Proof_Signal2.v
theories/Props_Signal.v
theories/Model_Mips.v
theories/Spec_Mips.v
theories/Proof_Mips.v
theories/Proof_Mips2.v
theories/Props_Mips.v
theories/Model_Passes.v
theories/Spec_Passes.v
theories/Proof_Passes.v
theories/Props_Passes.v
theories/Model_Pipe.v
theories/Spec_Pipe.v
theories/Proof_Pipe.v
theories/Proof_Pipe2.v
theories/Proof_Pipe3.v
theories/Proof_Pipe4.v
theories/Proof_Pipe5.v
theories/Proof_Pipe6.v
theories/Proof_Pipe7.v
theories/Proof_Pipe8.v
theories/Proof_Pipe9.v
theories/Proof_Pipe10.v
theories/Proof_Pipe11.v
theories/Props_Pipe.v
theories/Props_Pipe2.v
theories/Model_Ctx.v
theories/Spec_Ctx.v
theories/Props_Ctx.v
theories/Model_Target.v
theories/Spec_Device.v
theories/Proof_Device.v
theories/Proof_Device2.v
theories/Proof_Device3.v
theories/Proof_Device4.v
theories/Proof_Device5.v
theories/Proof_Device6.v
theories/Props_Device.v
theories/Spec_Target.v
theories/Proof_Target.v
theories/Proof_Target2.v
theories/Proof_Target3.v
theories/Props_Target.v
theories/Spec_Sync.v
theories/Proof_Sync.v
theories/Proof_Sync2.v
theories/Props_Sync.v
theories/Model_Order.v
theories/Props_Order.v
theories/Model_Dot.v
theories/Spec_Dot.v
theories/Proof_Dot.v
theories/Proof_Dot2.v
theories/Proof_Dot3.v
theories/Proof_Dot4.v
theories/Proof_Dot5.v
theories/Proof_Dot6.v
theories/Proof_Dot7.v
theories/Proof_Dot8.v
theories/Proof_Dot9.v
theories/Props_Dot.v
theories/Model_Indent.v
theories/Spec_Indent.v
theories/Proof_Indent.v
theories/Proof_Indent2.v
theories/Proof_Indent3.v
theories/Props_Indent.v
theories/Model_Conc.v
theories/Spec_Conc.v
theories/Proof_Conc.v
theories/Proof_Conc2.v
theories/Proof_Conc3.v
theories/Proof_Conc4.v
theories/Proof_Conc5.v
theories/Proof_Conc6.v
theories/Props_Conc.v
theories/Spec_Flow.v
theories/Proof_Flow.v
theories/Proof_Flow2.v
theories/Proof_Flow3.v
theories/Props_Flow.v
theories/Spec_Access.v
theories/Proof_Access.v
theories/Proof_Access2.v
theories/Proof_Access3.v
theories/Proof_Access4.v
theories/Props_Access.v
theories/Model_Life.v
theories/Spec_Life.v
theories/Proof_Life.v
theories/Proof_Life2.v
theories/Proof_Life3.v
theories/Proof_Life4.v
theories/Props_Life.v
theories/Model_Flight.v
theories/Spec_Flight.v
theories/Proof_Flight.v
theories/Proof_Flight2.v
theories/Props_Flight.v
theories/Model_Draw.v
theories/Spec_Draw.v
theories/Proof_Draw.v
theories/Proof_Draw2.v
theories/Proof_Draw3.v
theories/Proof_Draw4.v
theories/Props_Draw.v
theories/Model_Frames.v
theories/Spec_Frames.v
theories/Proof_Frames.v
theories/Proof_Frames2.v
theories/Proof_Frames3.v
theories/Props_Frames.v
theories/Props_Store.v
theories/Model_Quad.v
theories/Spec_Quad.v
theories/Props_Quad.v
theories/Model_Fail.v
theories/Spec_Fail.v
theories/Proof_Fail.v
theories/Proof_Fail2.v
theories/Proof_Fail3.v
theories/Proof_Fail4.v
theories/Props_Fail.v
theories/Model_Config.v
theories/Spec_Config.v
theories/Proof_Config.v
theories/Props_Config.v
theories/Spec_Overlap.v
theories/Proof_Overlap.v
theories/Proof_Overlap2.v
theories/Proof_Overlap3.v
theories/Props_Overlap.v
theories/Model_Leak.v
theories/Spec_Leak.v
theories/Proof_Leak.v
theories/Spec_Deliver.v
theories/Spec_Contents.v
theories/Proof_Contents.v
theories/Proof_Deliver.v
theories/Proof_Deliver2.v
theories/Props_Deliver.v
theories/Props_Contents.v
theories/Props_Leak.v
theories/Model_Rainbow.v
theories/Props_Rainbow.v
theories/Model_Inout.v
theories/Spec_Inout.v
theories/Proof_Inout.v
theories/Proof_Inout2.v
theories/Props_Inout.v
theories/Model_Names.v
theories/Spec_Names.v
theories/Proof_Names.v
theories/Props_Names.v
theories/Spec_Buffers.v
theories/Proof_Buffers.v
theories/Props_Buffers.v
theories/Model_Extent.v
theories/Spec_Extent.v
theories/Proof_Extent.v
theories/Props_Extent.v
theories/Spec_Elapsed.v
theories/Proof_Elapsed.v
theories/Props_Elapsed.v
theories/Model_Again.v
theories/Spec_Again.v
theories/Proof_Again.v
theories/Props_Again.v
theories/Props_Again2.v
theories/Spec_Implicit.v
theories/Props_Implicit.v
theories/Model_Assert.v
theories/Spec_Assert.v
theories/Props_Assert.v
