-Q theories Verif
theories/Base.v
theories/Hw.v
theories/M_Util.v
theories/M_Build.v
theories/M_Seq.v
theories/M_Decode.v
theories/M_Uncompress.v
theories/M_Query.v
theories/M_Intersect.v
theories/M_Union.v
theories/M_Many.v
theories/M_Index.v
theories/M_Print.v
theories/M_Calls.v
theories/M_Conc.v
theories/M_Tests.v
theories/M_Drivers.v
theories/M_Tools.v
theories/M_Text.v
theories/M_Out.v
theories/Printed.v
theories/Exact.v
theories/P_Out.v
theories/P_Out2.v
theories/P_Out3.v
theories/P_Out4.v
theories/M_Say.v
theories/M_Session.v
theories/M_Bench.v
theories/M_Live.v
theories/M_LiveQ.v
theories/M_Lax.v
theories/M_Script.v
theories/Report.v
theories/Session.v
theories/Bench.v
theories/Live.v
theories/Lax.v
theories/Script.v
theories/Ran.v
theories/P_Acc.v
theories/P_Acc2.v
theories/P_Acc3.v
theories/P_Acc4.v
theories/P_Acc5.v
theories/Spec.v
theories/Table.v
theories/Format.v
theories/Damage.v
theories/Astray.v
theories/Cut.v
theories/Beyond.v
theories/Jumps.v
theories/Places.v
theories/Back.v
theories/Lib.v
theories/L_Bits.v
theories/L_Group.v
theories/Layout.v
theories/P_Build1.v
theories/P_Build2.v
theories/P_Build3.v
theories/P_Seq.v
theories/P_Decode.v
theories/P_Query.v
theories/P_NextGeq.v
theories/P_Ng.v
theories/P_Enum.v
theories/P_Uncompress.v
theories/P_Sets.v
theories/P_Inter.v
theories/P_Union.v
theories/P_Index.v
theories/P_Stats.v
theories/P_Many.v
theories/P_Many2.v
theories/P_Float.v
theories/P_Ex.v
theories/P_Fin1.v
theories/P_Fin2.v
theories/P_Fin3.v
theories/P_Fin4.v
theories/P_Fin5.v
theories/P_Laws.v
theories/P_Format.v
theories/P_Dbg.v
theories/P_Print.v
theories/Counts.v
theories/P_Counts.v
theories/Shown.v
theories/P_Shown.v
theories/P_Scratch.v
theories/P_Conc.v
theories/P_Tests.v
theories/P_Jumps.v
theories/P_Align.v
theories/P_Damage.v
theories/P_Damage2.v
theories/P_Cut.v
theories/P_Beyond.v
theories/P_Spoil.v
theories/P_Plain.v
theories/P_Lands.v
theories/P_Astray.v
theories/P_Astray2.v
theories/P_Astray3.v
theories/P_Spoil2.v
theories/P_AstrayEx.v
theories/P_Safe.v
theories/P_Safe2.v
theories/P_Safe3.v
theories/P_SafeEx.v
theories/Prop_Cut.v
theories/Prop_Spoil.v
theories/Prop_Astray.v
theories/Prop_Safe.v
theories/Prop_Session.v
theories/Prop_Lax.v
theories/Prop_Beyond.v
theories/Prop_Damage.v
theories/P_Back.v
theories/P_Tests2.v
theories/P_Short.v
theories/P_Tests3.v
theories/Holds.v
theories/Told.v
theories/Typed.v
theories/Drawn.v
theories/P_Tests4.v
theories/P_Tests5.v
theories/Room.v
theories/RoomSets.v
theories/Reads.v
theories/ReadsSets.v
theories/Outcome.v
theories/Disorder.v
theories/P_Room.v
theories/P_RoomMany.v
theories/P_RoomInter.v
theories/P_RoomUnion.v
theories/P_RoomJoin.v
theories/P_ReadsJoin.v
theories/P_RoomSets.v
theories/P_Table.v
theories/P_ReadsEx.v
theories/P_Reads.v
theories/P_Total.v
theories/P_Drivers.v
theories/P_Tools.v
theories/P_Text.v
theories/P_Text2.v
theories/P_Text3.v
theories/P_Text4.v
theories/P_Text5.v
theories/P_Text6.v
theories/Prop_Text.v
theories/Prop_Out.v
theories/P_Say.v
theories/P_Say2.v
theories/P_Say3.v
theories/P_Say4.v
theories/P_Ran.v
theories/P_Script.v
theories/Prop_Say.v
theories/Prop_Ran.v
theories/Prop_Script.v
theories/Prop_Acc.v
theories/Prop_Align.v
theories/P_Malformed.v
theories/P_Session.v
theories/P_Session2.v
theories/P_Session3.v
theories/P_Lax.v
theories/P_Bench.v
theories/P_Bench2.v
theories/P_Bench3.v
theories/P_BenchEx.v
theories/P_Live.v
theories/P_Live2.v
theories/P_Live3.v
theories/P_LiveEx.v
theories/P_LiveQ.v
theories/P_LiveQ2.v
theories/P_LivePipe.v
theories/P_LiveQEx.v
theories/P_LivePipeEx.v
theories/P_Changed.v
theories/Prop_Bench.v
theories/Prop_Live.v
theories/Prop_LiveQ.v
theories/Prop_LivePipe.v
theories/Prop_Changed.v
theories/P_SessionEx.v
theories/P_LaxEx.v
theories/P_Disorder1.v
theories/P_Disorder2.v
theories/P_Disorder3.v
theories/P_Disorder4.v
theories/P_Ends.v
theories/P_Release.v
theories/P_Assert.v
theories/P_Example.v
theories/P_Fits.v
theories/Prop_Build.v
theories/Prop_Query.v
theories/Prop_Enum.v
theories/Prop_Jumps.v
theories/Prop_Back.v
theories/Prop_Sets.v
theories/Prop_Many.v
theories/Prop_Index.v
theories/Prop_Counts.v
theories/Prop_Filter.v
theories/Prop_Bounds.v
theories/Prop_Laws.v
theories/Prop_Format.v
theories/Prop_Modes.v
theories/Prop_Print.v
theories/Prop_Calls.v
theories/Prop_Conc.v
theories/M_Threads.v
theories/P_Threads1.v
theories/P_Threads2.v
theories/P_Threads3.v
theories/P_Threads4.v
theories/P_Threads5.v
theories/Prop_Threads.v
theories/Prop_Tests.v
theories/Prop_Room.v
theories/Prop_RoomSets.v
theories/Prop_ReadsSets.v
theories/Prop_Reads.v
theories/Prop_Total.v
theories/Prop_Drivers.v
theories/Prop_Tools.v
theories/Prop_Malformed.v
theories/Prop_Disorder.v
theories/Prop_Ends.v
theories/Prop_Assert.v
theories/Prop_Example.v
theories/Prop_Fits.v
theories/Prop_Table.v
