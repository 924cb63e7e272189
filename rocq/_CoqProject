-Q theories Verif
theories/Bytes.v
theories/AtCore.v
theories/AtMem.v
theories/SpecAt.v
theories/AtProofs.v
theories/AtProofs2.v
theories/AtProofs3.v
theories/AtProofs4.v
theories/Properties_At.v
theories/Status.v
theories/Signal.v
theories/SignalProofs.v
theories/Properties_Signal.v
theories/Socket.v
theories/SocketProofs.v
theories/Properties_Socket.v
theories/RegStatus.v
theories/SpecReg.v
theories/RegProofs.v
theories/Properties_Reg.v
theories/Pktio.v
theories/SpecPktio.v
theories/PktioLine.v
theories/PktioSafe.v
theories/SpecStream.v
theories/PktioStream.v
theories/PktioText.v
theories/Properties_Pktio.v
theories/SpecFrames.v
theories/PktioFrames.v
theories/PktioHooks.v
theories/Properties_Frames.v
theories/SendCmd.v
theories/SendProofs.v
theories/Properties_Send.v
theories/PktHandler.v
theories/SpecUrc.v
theories/UrcProofs.v
theories/Properties_Urc.v
theories/Request.v
theories/SpecRequest.v
theories/RequestInv.v
theories/RequestTidy.v
theories/RequestLive.v
theories/Properties_Request.v
theories/Properties_RequestAgree.v
theories/SpecAnswers.v
theories/RequestFull.v
theories/Properties_Answers.v
theories/Properties_Tables.v
theories/Lifecycle.v
theories/SpecLifecycle.v
theories/LifecycleInv.v
theories/LifecycleProofs.v
theories/Properties_Lifecycle.v
theories/G3pp.v
theories/SpecG3pp.v
theories/SpecG3ppApi.v
theories/G3ppProofs.v
theories/G3ppCmds.v
theories/G3ppIdent.v
theories/G3ppTime.v
theories/G3ppCops.v
theories/G3ppService.v
theories/G3ppHonest.v
theories/G3ppInfo.v
theories/Properties_G3pp.v
theories/Callbacks.v
theories/SpecCallbacks.v
theories/CallbackProofs.v
theories/Properties_Callbacks.v
theories/Locks.v
theories/SpecLocks.v
theories/LocksProofs.v
theories/LocksInv.v
theories/LocksLive.v
theories/Properties_Locks.v
theories/Wire.v
theories/SpecWire.v
theories/WireProofs.v
theories/Properties_Wire.v
theories/SpecTimed.v
theories/PktioTimed.v
theories/Properties_Timed.v
theories/SpecData.v
theories/PktioData.v
theories/Properties_Data.v
theories/RegWire.v
theories/SpecRegWire.v
theories/RegWireProofs.v
theories/Properties_RegWire.v
theories/Heap.v
theories/SpecHeap.v
theories/HeapProofs.v
theories/Properties_Heap.v
theories/G3ppMem.v
theories/SpecMem.v
theories/G3ppMemProofs.v
theories/G3ppMemProofs2.v
theories/G3ppMemProofs3.v
theories/Properties_Memory.v
theories/Wakeup.v
theories/SpecWakeup.v
theories/WakeupProofs.v
theories/Properties_Wakeup.v
theories/CmdText.v
theories/CmdTextProofs.v
theories/Properties_CmdText.v
theories/AtData.v
theories/SpecAtData.v
theories/AtDataProofs.v
theories/Properties_AtData.v
theories/Whole.v
theories/SpecWhole.v
theories/WholeProofs.v
theories/Properties_Whole.v
theories/SpecWholeSource.v
theories/WholeSource.v
theories/Properties_WholeLate.v
theories/SpecApiWhole.v
theories/Properties_ApiWhole.v
theories/SpecLive.v
theories/Properties_Live.v
theories/Driven.v
theories/SpecDriven.v
theories/Properties_Driven.v
theories/Payload.v
theories/SpecPayload.v
theories/PayloadProofs.v
theories/PayloadSteps.v
theories/PayloadOwner.v
theories/Properties_Payload.v
