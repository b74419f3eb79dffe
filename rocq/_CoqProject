-Q theories Verif
theories/Base.v
theories/M_Alias.v
theories/M_Areas.v
theories/M_Book.v
theories/M_Cap.v
theories/M_Cli.v
theories/M_Close.v
theories/M_Conc.v
theories/M_Data.v
theories/M_Disk.v
theories/M_Dist.v
theories/M_Encoding.v
theories/M_Entry.v
theories/M_Fault.v
theories/M_Feed.v
theories/M_Growing.v
theories/M_Ingest.v
theories/M_Json.v
theories/M_KdTree.v
theories/M_Keys.v
theories/M_KvFault.v
theories/M_Map.v
theories/M_Mem.v
theories/M_Messages.v
theories/M_Messenger.v
theories/M_Names.v
theories/M_Order.v
theories/M_Pai.v
theories/M_Paths.v
theories/M_Payload.v
theories/M_Pebble.v
theories/M_Query.v
theories/M_Ranges.v
theories/M_Readers.v
theories/M_Rel.v
theories/M_RelMem.v
theories/M_RelMem2.v
theories/M_Shell.v
theories/M_ShellFault.v
theories/M_Store.v
theories/M_Stream.v
theories/M_Successor.v
theories/M_Sync.v
theories/M_Transport.v
theories/M_Watch.v
theories/M_Wire.v
theories/M_Wire2.v
theories/M_WireCap.v
theories/P_Alias.v
theories/P_AreaCodec.v
theories/P_Areas.v
theories/P_Auth.v
theories/P_Book.v
theories/P_Conc.v
theories/P_Crash.v
theories/P_Demo.v
theories/P_Disk.v
theories/P_Encoding.v
theories/P_Fault.v
theories/P_Growing.v
theories/P_History.v
theories/P_Json.v
theories/P_Keys.v
theories/P_KvFault.v
theories/P_Ledger.v
theories/P_Map.v
theories/P_Mem.v
theories/P_Mono.v
theories/P_Names.v
theories/P_Order.v
theories/P_Paths.v
theories/P_Payload.v
theories/P_Query.v
theories/P_RangeCodec.v
theories/P_Ranges.v
theories/P_Rel.v
theories/P_RelMem.v
theories/P_Shell.v
theories/P_Store.v
theories/P_Stream.v
theories/P_SuccExact.v
theories/P_Successor.v
theories/P_Watch.v
theories/P_Wire.v
theories/P_Wire2.v
theories/Prop_AreaExact.v
theories/Prop_Areas.v
theories/Prop_Book.v
theories/Prop_Bytes.v
theories/Prop_Cli.v
theories/Prop_Close.v
theories/Prop_Codes.v
theories/Prop_Conc.v
theories/Prop_Crash.v
theories/Prop_Data.v
theories/Prop_Disk.v
theories/Prop_Dist.v
theories/Prop_Exact.v
theories/Prop_Fault.v
theories/Prop_Feed.v
theories/Prop_Goroutine.v
theories/Prop_Gossip.v
theories/Prop_Grammar.v
theories/Prop_Growing.v
theories/Prop_Ingest.v
theories/Prop_Json.v
theories/Prop_Keys.v
theories/Prop_KvFault.v
theories/Prop_Ledger.v
theories/Prop_Listed.v
theories/Prop_Malformed.v
theories/Prop_Mem.v
theories/Prop_Messages.v
theories/Prop_Messenger.v
theories/Prop_Names.v
theories/Prop_Orders.v
theories/Prop_Pai.v
theories/Prop_Paths.v
theories/Prop_PathsExact.v
theories/Prop_Payload.v
theories/Prop_Pebble.v
theories/Prop_Query.v
theories/Prop_Readers.v
theories/Prop_Reading.v
theories/Prop_Rel.v
theories/Prop_RelMem.v
theories/Prop_RelMem2.v
theories/Prop_Shell.v
theories/Prop_ShellEnds.v
theories/Prop_ShellFault.v
theories/Prop_Start.v
theories/Prop_Store.v
theories/Prop_SuccExact.v
theories/Prop_Successor.v
theories/Prop_Sync.v
theories/Prop_Told.v
theories/Prop_Transport.v
theories/Prop_Wakeup.v
theories/Prop_Watch.v
theories/Prop_Wire.v
theories/Prop_Wire2.v
theories/Prop_WireCap.v
theories/Prop_Written.v
theories/S_Book.v
theories/S_Json.v
theories/S_Names.v
theories/S_Order.v
theories/S_Query.v
theories/S_Rel.v
theories/S_Shell.v
theories/S_Store.v
theories/S_Wire.v
theories/S_Wire2.v
