-Q theories Verif
theories/Admit.v
theories/AdmitProofs.v
theories/AllProofs.v
theories/AnswerProofs.v
theories/ApiProofs.v
theories/AskProofs.v
theories/Async.v
theories/AsyncProofs.v
theories/BusyProofs.v
theories/CarelessProofs.v
theories/CastProofs.v
theories/CloseProofs.v
theories/Code.v
theories/CodecProofs.v
theories/ConnProofs.v
theories/Cross.v
theories/CrossProofs.v
theories/DeliverProofs.v
theories/Dial.v
theories/E2EProofs.v
theories/End.v
theories/EndProofs.v
theories/ErrProofs.v
theories/Errors.v
theories/Examples.v
theories/Exchange.v
theories/ExchangeProofs.v
theories/ExecProofs.v
theories/ExitProofs.v
theories/FireProofs.v
theories/ForgeProofs.v
theories/Frame.v
theories/FrameW.v
theories/Frozen.v
theories/Gate.v
theories/GateProofs.v
theories/Go.v
theories/Gone.v
theories/GoneProofs.v
theories/HandlerProofs.v
theories/Handlers.v
theories/HandshakeProofs.v
theories/History.v
theories/HoldProofs.v
theories/Http.v
theories/HttpProofs.v
theories/Hung.v
theories/HungProofs.v
theories/Ident.v
theories/IdentProofs.v
theories/Inert.v
theories/Jam.v
theories/JamProofs.v
theories/Lang.v
theories/LetterProofs.v
theories/LocalProofs.v
theories/LockProofs.v
theories/Logic.v
theories/Loop.v
theories/LoopProofs.v
theories/Message.v
theories/MixProofs.v
theories/Naming.v
theories/NamingProofs.v
theories/NativeProofs.v
theories/Order.v
theories/OrderProofs.v
theories/PairProofs.v
theories/Prop_Admit.v
theories/Prop_All.v
theories/Prop_Api.v
theories/Prop_Ask.v
theories/Prop_Async.v
theories/Prop_Busy.v
theories/Prop_Careless.v
theories/Prop_Cast.v
theories/Prop_Close.v
theories/Prop_Conn.v
theories/Prop_Cross.v
theories/Prop_Deliver.v
theories/Prop_E2E.v
theories/Prop_End.v
theories/Prop_Err.v
theories/Prop_Exchange.v
theories/Prop_Exit.v
theories/Prop_Fire.v
theories/Prop_Forge.v
theories/Prop_Gate.v
theories/Prop_Gone.v
theories/Prop_Handlers.v
theories/Prop_Handshake.v
theories/Prop_Hold.v
theories/Prop_Http.v
theories/Prop_Hung.v
theories/Prop_Ident.v
theories/Prop_Jam.v
theories/Prop_Letter.v
theories/Prop_Local.v
theories/Prop_Lock.v
theories/Prop_Loop.v
theories/Prop_Mix.v
theories/Prop_Naming.v
theories/Prop_Native.v
theories/Prop_Order.v
theories/Prop_Pair.v
theories/Prop_Quit.v
theories/Prop_Ready.v
theories/Prop_Reflect.v
theories/Prop_Reply.v
theories/Prop_Route.v
theories/Prop_Safe.v
theories/Prop_Same.v
theories/Prop_Self.v
theories/Prop_Shelf.v
theories/Prop_Slice.v
theories/Prop_Socket.v
theories/Prop_Store.v
theories/Prop_Stuck.v
theories/Prop_Twice.v
theories/Prop_Wait.v
theories/Prop_Wire.v
theories/Prop_Zero.v
theories/QuitProofs.v
theories/Ready.v
theories/ReadyProofs.v
theories/Reflect.v
theories/ReflectProofs.v
theories/ReplyProofs.v
theories/RouteProofs.v
theories/SafeCode.v
theories/SafeOps.v
theories/SafeProofs.v
theories/SafeRules.v
theories/SameProofs.v
theories/Scenes.v
theories/Self.v
theories/SelfProofs.v
theories/Sem.v
theories/SeqProofs.v
theories/Shake.v
theories/Shelf.v
theories/ShelfProofs.v
theories/Slice.v
theories/SliceProofs.v
theories/Socket.v
theories/SocketProofs.v
theories/Spec_Admit.v
theories/Spec_All.v
theories/Spec_Answer.v
theories/Spec_Api.v
theories/Spec_App.v
theories/Spec_Async.v
theories/Spec_Busy.v
theories/Spec_Cast.v
theories/Spec_Conn.v
theories/Spec_Cross.v
theories/Spec_Err.v
theories/Spec_Exchange.v
theories/Spec_Exit.v
theories/Spec_Forge.v
theories/Spec_Gone.v
theories/Spec_Handlers.v
theories/Spec_Http.v
theories/Spec_Ident.v
theories/Spec_Jam.v
theories/Spec_Loop.v
theories/Spec_Mix.v
theories/Spec_Naming.v
theories/Spec_Native.v
theories/Spec_Order.v
theories/Spec_Pair.v
theories/Spec_Ready.v
theories/Spec_Reflect.v
theories/Spec_Same.v
theories/Spec_Self.v
theories/Spec_Shelf.v
theories/Spec_Slice.v
theories/Spec_Socket.v
theories/Spec_Store.v
theories/Spec_Stuck.v
theories/Spec_View.v
theories/Spec_Wire.v
theories/Spec_Zero.v
theories/Store.v
theories/StoreProofs.v
theories/StuckProofs.v
theories/TwiceProofs.v
theories/WaitProofs.v
theories/WireProofs.v
theories/World.v
theories/ZeroProofs.v
