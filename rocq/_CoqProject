-Q theories Verif
theories/Base.v
theories/L_Base.v
theories/M_BitTbl.v
theories/M_RdyGrp.v
theories/S_RdyGrp.v
theories/L_RdyGrp.v
theories/P_RdyGrp.v
theories/M_Queue.v
theories/S_Queue.v
theories/L_Queue.v
theories/P_Queue.v
theories/M_MemPool.v
theories/S_MemPool.v
theories/L_MemPool.v
theories/P_MemPool.v
theories/M_Tmr.v
theories/S_Tmr.v
theories/L_Tmr.v
theories/P_Tmr.v
theories/M_TrcStream.v
theories/S_TrcStream.v
theories/L_TrcStream.v
theories/P_TrcStream.v
theories/M_TrcRecord.v
theories/S_TrcRecord.v
theories/L_TrcRecord.v
theories/P_TrcRecord.v
theories/M_TrcFilter.v
theories/S_TrcFilter.v
theories/L_TrcFilter.v
theories/P_TrcFilter.v
theories/M_Kernel.v
theories/S_Kernel.v
theories/L_KMem.v
theories/L_KQueue.v
theories/L_Kernel.v
theories/L_KRun.v
theories/L_KBoot.v
theories/L_KProps.v
theories/L_KSeq.v
theories/L_KDefer.v
theories/L_KPost.v
theories/L_KSched.v
theories/L_KTab.v
theories/L_KWrap.v
theories/P_KExample.v
theories/P_Kernel.v
theories/M_Sm.v
theories/S_Sm.v
theories/S_SmWf.v
theories/L_Sm.v
theories/L_SmWalk.v
theories/L_SmStep.v
theories/L_SmDet.v
theories/L_SmWf.v
theories/S_SmRun.v
theories/L_SmKeep.v
theories/L_SmSafe.v
theories/L_SmProps.v
theories/L_SmDisp.v
theories/L_SmDo.v
theories/L_SmLog.v
theories/L_SmReplay.v
theories/L_SmMore.v
theories/P_SmExample.v
theories/P_Sm.v
theories/S_SmTerm.v
theories/L_SmTerm.v
theories/P_SmTerm.v
theories/M_App.v
theories/S_App.v
theories/L_App.v
theories/L_AppSm.v
theories/P_App.v
theories/M_TmrSys.v
theories/S_TmrSys.v
theories/L_TmrSys.v
theories/P_TmrSys.v
theories/S_KStat.v
theories/L_KStat.v
theories/P_KStat.v
theories/S_KSub.v
theories/L_KSub.v
theories/P_KSub.v
theories/M_Port.v
theories/S_Port.v
theories/L_Port.v
theories/P_Port.v
theories/M_SmFlat.v
theories/S_SmFlat.v
theories/L_SmFlat.v
theories/P_SmFlat.v
theories/M_Time.v
theories/P_Time.v
theories/S_SmCode.v
theories/L_SmCode.v
theories/P_SmCode.v
theories/M_Threads.v
theories/S_Threads.v
theories/L_Threads.v
theories/L_TRun.v
theories/L_TProps.v
theories/P_Threads.v
theories/M_SmStat.v
theories/S_SmStat.v
theories/L_SmStat.v
theories/L_SmCnt.v
theories/P_SmStat.v
theories/L_SmArr.v
theories/P_SmArr.v
theories/M_DemoSm.v
theories/S_DemoSm.v
theories/L_DemoSm.v
theories/P_DemoSm.v
theories/S_SmScope.v
theories/L_SmScope.v
theories/P_SmScope.v
theories/M_St.v
theories/S_St.v
theories/L_StRun.v
theories/L_StProps.v
theories/P_St.v
theories/M_KTrc.v
theories/S_KTrc.v
theories/L_KTrc.v
theories/P_KTrc.v
theories/M_TzParse.v
theories/S_TzParse.v
theories/L_TzParse.v
theories/P_TzParse.v
theories/M_Life.v
theories/S_Life.v
theories/L_Life.v
theories/P_Life.v
theories/M_TmrTrc.v
theories/S_TmrTrc.v
theories/L_TmrTrc.v
theories/P_TmrTrc.v
theories/M_Shared.v
theories/S_Shared.v
theories/L_Shared.v
theories/L_SharedP.v
theories/P_Shared.v
theories/M_Blinky.v
theories/S_Blinky.v
theories/L_Blinky.v
theories/P_Blinky.v
theories/M_Flush.v
theories/S_Flush.v
theories/L_Flush.v
theories/P_Flush.v
theories/M_Link.v
theories/S_Link.v
theories/L_Link.v
theories/P_Link.v
theories/P_KTerm.v
theories/S_KQStat.v
theories/L_KQStat.v
theories/P_KQStat.v
theories/S_AppTerm.v
theories/L_AppTerm.v
theories/L_SmLife.v
theories/P_AppTerm.v
