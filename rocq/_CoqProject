-Q theories Verif
theories/M_Go.v
theories/P_Go.v
theories/M_Ebpf.v
theories/P_Ebpf.v
theories/M_CcNum.v
theories/M_Cc.v
theories/M_Kallsyms.v
theories/S_Kallsyms.v
theories/P_Kallsyms.v
theories/P_Kallsyms2.v
theories/T_Kallsyms.v
theories/M_Bytes.v
theories/P_Bytes.v
theories/P_Bytes2.v
theories/T_Bytes.v
theories/S_CSem.v
theories/S_CSup.v
theories/P_CcMach.v
theories/P_CcWalk.v
theories/P_CcNumr.v
theories/P_CcMat.v
theories/P_CcVal.v
theories/P_CcOps.v
theories/P_CcOps2.v
theories/P_CcSim.v
theories/P_CcSim2.v
theories/P_CcTop.v
theories/X_CcDemo.v
theories/T_Cc.v
theories/P_CcSafe.v
theories/P_CcSafe2.v
theories/P_CcSafe3.v
theories/S_Run.v
theories/P_CcTop2.v
theories/T_CcSafe.v
theories/P_CcReg.v
theories/T_CcReg.v
theories/S_Num.v
theories/P_Num.v
theories/P_CcFold.v
theories/T_CcNum.v
theories/P_CcVals.v
theories/T_CcVals.v
theories/S_Path.v
theories/P_CcAddr.v
theories/T_CcAddr.v
theories/M_Sess.v
theories/S_Sess.v
theories/P_Sess.v
theories/P_Sess2.v
theories/P_Sess3.v
theories/T_Sess.v
theories/M_Fgraph.v
theories/S_Fgraph.v
theories/P_Fgraph.v
theories/T_Fgraph.v
theories/M_Pkt.v
theories/S_Pkt.v
theories/P_Pkt.v
theories/T_Pkt.v
theories/M_FnArgs.v
theories/S_FnArgs.v
theories/P_FnArgs.v
theories/P_FnArgs2.v
theories/T_FnArgs.v
theories/M_Cfg.v
theories/S_Cfg.v
theories/P_Cfg.v
theories/T_Cfg.v
theories/S_Null.v
theories/P_Null.v
theories/P_Null2.v
theories/P_NullTop.v
theories/T_Null.v
theories/M_OutArg.v
theories/S_OutArg.v
theories/P_OutArg.v
theories/P_OutArg2.v
theories/P_OutArg3.v
theories/P_OutArg4.v
theories/P_OutArg5.v
theories/P_OutArg6.v
theories/T_OutArg.v
theories/M_Asm.v
theories/S_Asm.v
theories/P_Asm.v
theories/T_Asm.v
theories/M_Flame.v
theories/S_Flame.v
theories/P_Flame.v
theories/T_Flame.v
theories/M_Flags.v
theories/S_Flags.v
theories/P_Flags.v
theories/T_Flags.v
theories/M_Line.v
theories/P_Line.v
theories/T_Line.v
theories/M_Lbr.v
theories/S_Lbr.v
theories/P_Lbr.v
theories/T_Lbr.v
theories/M_Cache.v
theories/S_Cache.v
theories/P_Cache.v
theories/P_Cache2.v
theories/T_Cache.v
theories/M_A2l.v
theories/S_A2l.v
theories/P_A2l.v
theories/M_Ready.v
theories/P_Ready.v
theories/T_A2l.v
theories/M_Kfuncs.v
theories/S_Kfuncs.v
theories/P_Kfuncs.v
theories/T_Kfuncs.v
theories/M_Multi.v
theories/S_Multi.v
theories/P_Multi.v
theories/T_Multi.v
theories/M_ProgSel.v
theories/S_ProgSel.v
theories/P_ProgSel.v
theories/T_ProgSel.v
theories/M_Gparse.v
theories/S_Gparse.v
theories/P_Gparse.v
theories/T_Gparse.v
theories/M_Vars.v
theories/S_Vars.v
theories/P_Vars.v
theories/T_Vars.v
theories/M_Repr.v
theories/S_Repr.v
theories/P_Repr.v
theories/T_Repr.v
theories/M_Stack.v
theories/S_Stack.v
theories/P_Stack.v
theories/T_Stack.v
theories/M_Tdigest.v
theories/S_Tdigest.v
theories/P_Tdigest.v
theories/T_Tdigest.v
theories/M_Disasm.v
theories/S_Disasm.v
theories/P_Disasm.v
theories/T_Disasm.v
theories/M_Tp.v
theories/S_Tp.v
theories/P_Tp.v
theories/T_Tp.v
theories/M_Traceable.v
theories/S_Traceable.v
theories/P_Traceable.v
theories/T_Traceable.v
theories/M_Ghook.v
theories/P_Ghook.v
theories/T_Ghook.v
theories/M_Tproto.v
theories/S_Tproto.v
theories/P_Tproto.v
theories/T_Tproto.v
theories/S_Short.v
theories/P_CcShort.v
theories/P_Null3.v
theories/P_CcShort2.v
theories/T_CcShort.v
theories/M_Gproto.v
theories/S_Gproto.v
theories/P_Gproto.v
theories/T_Gproto.v
theories/M_PktSel.v
theories/S_PktSel.v
theories/P_PktSel.v
theories/T_PktSel.v
theories/M_LineInfo.v
theories/S_LineInfo.v
theories/P_LineInfo.v
theories/T_LineInfo.v
theories/M_LbrCap.v
theories/S_LbrCap.v
theories/P_LbrCap.v
theories/T_LbrCap.v
theories/M_Dbg.v
theories/S_Dbg.v
theories/P_Dbg.v
theories/T_Dbg.v
theories/M_Tail.v
theories/S_Tail.v
theories/P_Tail.v
theories/T_Tail.v
theories/M_Emit.v
theories/S_Emit.v
theories/P_Emit.v
theories/T_Emit.v
theories/M_Label.v
theories/S_Label.v
theories/P_Label.v
theories/T_Label.v
theories/M_Proto.v
theories/S_Proto.v
theories/P_Proto.v
theories/T_Proto.v
theories/M_Attach.v
theories/S_Attach.v
theories/P_Attach.v
theories/T_Attach.v
theories/S_Lossy.v
theories/P_Lossy.v
theories/T_Lossy.v
theories/M_Shutdown.v
theories/S_Shutdown.v
theories/P_Shutdown.v
theories/T_Shutdown.v
theories/M_Grec.v
theories/S_Grec.v
theories/P_Grec.v
theories/T_Grec.v
theories/S_Ctx.v
theories/M_Conc.v
theories/S_Conc.v
theories/P_Conc.v
theories/P_Conc2.v
theories/T_Conc.v
theories/P_Ctx.v
theories/T_Ctx.v
theories/M_Sid.v
theories/S_Sid.v
theories/P_Sid.v
theories/T_Sid.v
theories/M_LbrOpen.v
theories/S_LbrOpen.v
theories/P_LbrOpen.v
theories/T_LbrOpen.v
theories/M_Ltest.v
theories/S_Ltest.v
theories/P_Ltest.v
theories/T_Ltest.v
theories/M_Gmember.v
theories/S_Gmember.v
theories/P_Gmember.v
theories/T_Gmember.v
theories/M_Color.v
theories/S_Color.v
theories/P_Color.v
theories/T_Color.v
theories/M_Kmulti.v
theories/P_Kmulti.v
theories/T_Kmulti.v
theories/M_Need.v
theories/S_Need.v
theories/P_Need.v
theories/T_Need.v
theories/M_Read.v
theories/S_Read.v
theories/P_Read.v
theories/T_Read.v
theories/M_Crc.v
theories/S_Crc.v
theories/P_Crc.v
theories/T_Crc.v
theories/M_Trim.v
theories/S_Trim.v
theories/P_Trim.v
theories/T_Trim.v
theories/M_ArgType.v
theories/S_ArgType.v
theories/P_ArgType.v
theories/T_ArgType.v
theories/M_ReadAt.v
theories/P_ReadAt.v
theories/T_ReadAt.v
theories/M_Text.v
theories/S_Text.v
theories/P_Text.v
theories/T_Text.v
theories/M_CallLine.v
theories/S_CallLine.v
theories/P_CallLine.v
theories/T_CallLine.v
theories/M_MultiLine.v
theories/S_MultiLine.v
theories/P_MultiLine.v
theories/T_MultiLine.v
theories/S_Kmods.v
theories/P_Kmods.v
theories/T_Kmods.v
theories/S_CType.v
theories/T_CType.v
theories/S_CcNames.v
theories/P_CcNames.v
theories/T_CcNames.v
