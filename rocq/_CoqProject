-Q theories Verif
theories/Base.v
theories/BaseFacts.v
theories/M_Trie.v
theories/S_Trie.v
theories/L_Trie.v
theories/P_Trie.v
theories/M_Schema.v
theories/S_Schema.v
theories/L_Schema.v
theories/P_Schema.v
theories/M_Table.v
theories/M_Query.v
theories/S_Query.v
theories/L_Query.v
theories/P_Query.v
theories/M_Feature.v
theories/M_FeatureSet.v
theories/M_Calc.v
theories/M_LastTime.v
theories/S_LastTime.v
theories/L_LastTime.v
theories/S_View.v
theories/L_View.v
theories/P_LastTime.v
theories/S_Sem.v
theories/S_Calc.v
theories/L_FeatureSet.v
theories/L_CalcExt.v
theories/L_Frame.v
theories/X_Demo.v
theories/P_Leak.v
theories/S_Plan.v
theories/L_Plan.v
theories/P_Plan.v
theories/S_Group.v
theories/L_Group.v
theories/P_Group.v
theories/M_CFM.v
theories/S_CFM.v
theories/L_CFM.v
theories/L_Cutoff.v
theories/P_CFM.v
theories/M_Time.v
theories/S_Time.v
theories/L_Time.v
theories/P_Time.v
theories/M_Progress.v
theories/S_Progress.v
theories/L_Progress.v
theories/P_Progress.v
theories/M_Select.v
theories/S_Select.v
theories/P_Select.v
theories/M_Encode.v
theories/S_Encode.v
theories/L_Encode.v
theories/P_Encode.v
theories/M_Entities.v
theories/S_Entities.v
theories/P_Equality.v
theories/L_Entities.v
theories/P_Relate.v
theories/P_Meta.v
theories/S_Calls.v
theories/L_Tables.v
theories/P_Tables.v
theories/L_Normalize.v
theories/P_Normalize.v
theories/P_Concat.v
theories/P_Describe.v
theories/M_Types.v
theories/M_Serialize.v
theories/S_Serialize.v
theories/P_Classes.v
theories/S_Depth.v
theories/P_Depth.v
theories/P_Serialize.v
theories/M_Match.v
theories/M_DFS.v
theories/S_Match.v
theories/P_Match.v
theories/L_DFS.v
theories/S_DFS.v
theories/P_DFS.v
theories/P_DFSCase.v
theories/P_DFSTerm.v
theories/S_Options.v
theories/P_Options.v
theories/L_Value1.v
theories/L_Value2.v
theories/L_Value3.v
theories/L_Value4.v
theories/L_Value5.v
theories/L_Value6.v
theories/L_Value7.v
theories/P_Value.v
theories/P_ValueUse.v
theories/P_ValueRef.v
theories/M_Prims.v
theories/S_Prims.v
theories/P_Cumulative.v
theories/P_Partition.v
theories/M_Prims2.v
theories/P_Times.v
theories/M_Names.v
theories/S_Names.v
theories/L_Names.v
theories/P_Names.v
theories/S_Value.v
theories/P_EndToEnd.v
theories/P_LeakMatrix.v
theories/P_Arrival.v
theories/M_Prims3.v
theories/S_Aggs.v
theories/P_Aggs.v
theories/M_Expr.v
theories/S_Expr.v
theories/P_Expr.v
theories/S_Approx.v
theories/M_Approx.v
theories/L_Approx.v
theories/L_Gather.v
theories/L_Approx2.v
theories/L_Approx3.v
theories/P_Approx.v
theories/S_Total.v
theories/L_Total1.v
theories/L_Total2.v
theories/L_Total3.v
theories/P_Total.v
theories/P_TotalMatrix.v
theories/P_Normalize2.v
theories/P_Create.v
theories/P_Describe2.v
theories/P_Serialize2.v
theories/P_Time2.v
theories/P_PathNames.v
theories/S_Types.v
theories/P_Types.v
theories/M_Lineage.v
theories/S_Lineage.v
theories/L_Lineage.v
theories/L_Lineage2.v
theories/L_Lineage3.v
theories/P_Lineage.v
theories/S_DFSAll.v
theories/L_DFSAll.v
theories/P_DFSAll.v
theories/P_DFSAllCase.v
theories/S_Unused.v
theories/M_Unused.v
theories/P_Unused.v
theories/M_Words.v
theories/S_Words.v
theories/P_Words.v
theories/P_WordsCase.v
theories/M_Files.v
theories/S_Files.v
theories/L_Files.v
theories/P_Files.v
theories/P_Files2.v
theories/M_Interesting.v
theories/S_Interesting.v
theories/P_Interesting.v
theories/P_ValueLink.v
theories/S_Ordinary.v
theories/L_Ordinary.v
theories/S_DFSMatrix.v
theories/L_DFSMatrix.v
theories/P_DFSMatrix.v
theories/S_Repro.v
theories/L_Repro.v
theories/P_Repro.v
theories/M_Setup.v
theories/S_Setup.v
theories/P_Setup.v
theories/M_Make.v
theories/S_Make.v
theories/P_Make.v
theories/M_Infer.v
theories/S_Infer.v
theories/P_Infer.v
theories/M_Args.v
theories/P_Args.v
theories/M_Construct.v
theories/S_Construct.v
theories/L_Construct.v
theories/L_Construct2.v
theories/P_Construct.v
theories/M_Geo.v
theories/S_Geo.v
theories/P_Geo.v
theories/M_Entropy.v
theories/S_Entropy.v
theories/P_Entropy.v
theories/M_Calendar.v
theories/S_Calendar.v
theories/L_Calendar.v
theories/P_Calendar.v
theories/M_Text.v
theories/S_Text.v
theories/P_Text.v
theories/M_EncodeInplace.v
theories/P_EncodeInplace.v
theories/M_Previous.v
theories/P_Previous.v
theories/M_Report.v
theories/P_Report.v
theories/M_Commute.v
theories/P_Commute.v
theories/M_Options.v
theories/P_Options2.v
theories/S_Options2.v
theories/M_Divide.v
theories/S_Divide.v
theories/P_Divide.v
theories/S_Seeds.v
theories/P_Seeds.v
theories/M_Listing.v
theories/S_Listing.v
theories/P_Listing.v
theories/M_Plot.v
theories/S_Plot.v
theories/P_Plot.v
theories/M_VTypes.v
theories/S_VTypes.v
theories/P_VTypes.v
theories/M_Observe.v
theories/S_Observe.v
theories/P_Observe.v
theories/M_Logging.v
theories/S_Logging.v
theories/P_Logging.v
theories/M_Koalas.v
theories/S_Koalas.v
theories/P_Koalas.v
