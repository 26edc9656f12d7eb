-Q theories Verif
theories/Base.v
theories/Chrono_Model.v
theories/Calendar_Spec.v
theories/Chrono_Proofs.v
theories/DateTime_Model.v
theories/DateTime_Spec.v
theories/DateTime_Proofs.v
theories/Timezone_Proofs.v
theories/DateTime_Props.v
theories/Wire_Model.v
theories/Wire_Spec.v
theories/Wire_Proofs.v
theories/Wire_Props.v
theories/Serial_Model.v
theories/Serial_Spec.v
theories/Serial_Data_Proofs.v
theories/Serial_Proofs.v
theories/Serial_Graph_Proofs.v
theories/Serial_Roundtrip_Proofs.v
theories/Serial_Total_Proofs.v
theories/Serial_Evolution_Proofs.v
theories/Serial_Props.v
theories/Serial_Safety_Proofs.v
theories/Serial_Safety_Props.v
theories/PyList.v
theories/PyList_Proofs.v
theories/Sort_Model.v
theories/Sort_Spec.v
theories/Sort_Proofs.v
theories/Sort_Props.v
theories/SortedDict_Model.v
theories/SortedDict_Spec.v
theories/SortedDict_Proofs.v
theories/SortedDict_Depth_Proofs.v
theories/SortedDict_Map_Proofs.v
theories/SortedDict_Props.v
theories/Hash_Model.v
theories/Hash_Spec.v
theories/Hash_Probe_Proofs.v
theories/Hash_Index_Proofs.v
theories/Hash_Proofs.v
theories/Hash_Iter_Proofs.v
theories/Hash_Props.v
theories/Set_Model.v
theories/Set_Spec.v
theories/Set_Proofs.v
theories/Set_Run_Proofs.v
theories/Set_Props.v
theories/Dict_Cmp_Model.v
theories/Dict_Cmp_Proofs.v
theories/Dict_Cmp_Props.v
theories/HashAcc_Model.v
theories/ConstDict_Model.v
theories/ConstDict_Spec.v
theories/ConstDict_Proofs.v
theories/ConstDict_Cmp_Proofs.v
theories/ConstDict_Props.v
theories/Queue_Model.v
theories/Queue_Spec.v
theories/Queue_Proofs.v
theories/Queue_Order_Proofs.v
theories/Queue_Live_Proofs.v
theories/Queue_Props.v
theories/Pmap_Model.v
theories/Pmap_Spec.v
theories/Pmap_Proofs.v
theories/Pmap_Live_Proofs.v
theories/Pmap_End_Proofs.v
theories/Pmap_Props.v
theories/Compress_Model.v
theories/Compress_Spec.v
theories/Compress_Proofs.v
theories/Compress_Live_Proofs.v
theories/Decompress_Model.v
theories/Decompress_Spec.v
theories/Decompress_Proofs.v
theories/Compress_Props.v
theories/Graph_Model.v
theories/Graph_Spec.v
theories/Graph_Proofs.v
theories/Graph_Work_Proofs.v
theories/Graph_Props.v
theories/Arith_Model.v
theories/Arith_Spec.v
theories/Arith_Proofs.v
theories/Arith_Mixed_Proofs.v
theories/Upcast_Model.v
theories/Upcast_Spec.v
theories/Upcast_Proofs.v
theories/Arith_Props.v
theories/Call_Model.v
theories/Call_Spec.v
theories/Call_Proofs.v
theories/Call_Overload_Proofs.v
theories/Call_Props.v
theories/Merge_Model.v
theories/Merge_Spec.v
theories/Merge_Proofs.v
theories/Merge_Props.v
theories/Val_Model.v
theories/Val_Spec.v
theories/Val_Proofs.v
theories/Val_Cmp_Proofs.v
theories/Val_Hash_Proofs.v
theories/Val_Props.v
theories/ValPy_Model.v
theories/ValPy_Spec.v
theories/ValPy_Proofs.v
theories/ValPy_Order_Proofs.v
theories/ValPy_Props.v
theories/ListOf_Model.v
theories/ListOf_Spec.v
theories/ListOf_Slice_Proofs.v
theories/ListOf_Proofs.v
theories/ListOf_Run_Proofs.v
theories/ListOf_Props.v
theories/DateText_Model.v
theories/DateText_Spec.v
theories/DateText_Format_Proofs.v
theories/DateText_Token_Proofs.v
theories/DateText_Parse_Proofs.v
theories/DateText_Written_Proofs.v
theories/DateText_Accept_Proofs.v
theories/DateText_Props.v
theories/Text_Model.v
theories/TextSearch_Model.v
theories/TextSearch_Spec.v
theories/TextSearch_Proofs.v
theories/TextSearch_Props.v
theories/TextSplit_Model.v
theories/TextSplit_Spec.v
theories/TextSplit_Proofs.v
theories/TextSplit_Calls_Proofs.v
theories/TextSplit_Lines_Proofs.v
theories/TextSplit_Props.v
theories/TextEdit_Model.v
theories/TextEdit_Spec.v
theories/TextEdit_Proofs.v
theories/TextEdit_Props.v
theories/TextSlice_Model.v
theories/TextSlice_Proofs.v
theories/TextSlice_Props.v
theories/PyStmt.v
theories/PyStmt_Toy.v
theories/Gen_Model.v
theories/Gen_Spec.v
theories/Gen_Proofs.v
theories/Gen_Props.v
theories/Lower_Model.v
theories/Lower_Spec.v
theories/Lower_Proofs.v
theories/Lower_Props.v
theories/Flow_Model.v
theories/Flow_Spec.v
theories/Flow_Proofs.v
theories/Flow_Props.v
theories/PyLoop.v
theories/Loop_Model.v
theories/Loop_Spec.v
theories/Loop_Proofs.v
theories/Loop_Props.v
theories/Comp_Spec.v
theories/Comp_Model.v
theories/Comp_Proofs.v
theories/Comp_Props.v
theories/Class_Model.v
theories/Class_Spec.v
theories/Class_Order_Proofs.v
theories/Class_Proofs.v
theories/Class_Attr_Proofs.v
theories/Class_Props.v
theories/Inst_Model.v
theories/Inst_Spec.v
theories/Inst_Proofs.v
theories/Inst_Class_Proofs.v
theories/Inst_Heap_Proofs.v
theories/Inst_Props.v
theories/Disp_Model.v
theories/Disp_Spec.v
theories/Disp_Table_Proofs.v
theories/Disp_Proofs.v
theories/Disp_Step_Proofs.v
theories/Disp_Props.v
theories/Isa_Model.v
theories/Isa_Spec.v
theories/Isa_Proofs.v
theories/Isa_Props.v
theories/Utf8_Model.v
theories/Utf8_Spec.v
theories/Utf8_Proofs.v
theories/Utf8_Props.v
theories/TextCell_Model.v
theories/TextCell_Spec.v
theories/TextCell_Proofs.v
theories/TextCell_Props.v
theories/TextAsk_Table.v
theories/TextAsk_Model.v
theories/TextAsk_Spec.v
theories/TextAsk_Proofs.v
theories/TextAsk_Props.v
theories/TextCase_Model.v
theories/TextCase_Spec.v
theories/TextCase_Proofs.v
theories/TextCase_Props.v
theories/TextNum_Model.v
theories/TextNum_Spec.v
theories/TextNum_Proofs.v
theories/TextNum_Props.v
theories/FloatText_Model.v
theories/FloatText_Spec.v
theories/FloatText_Proofs.v
theories/FloatText_Props.v
theories/Copy_Model.v
theories/Copy_Spec.v
theories/Copy_Proofs.v
theories/Copy_Props.v
theories/Best_Model.v
theories/Best_Spec.v
theories/Best_Proofs.v
theories/Best_Props.v
theories/Life_Model.v
theories/Life_Spec.v
theories/Life_Proofs.v
theories/Life_Memory.v
theories/Life_Assign.v
theories/Life_Program.v
theories/Life_Props.v
theories/Vars_Model.v
theories/Vars_Spec.v
theories/Vars_Proofs.v
theories/Vars_Believe.v
theories/Vars_Sound.v
theories/Vars_Python.v
theories/Vars_Meaning.v
theories/Vars_Example.v
theories/Vars_Props.v
theories/Matrix_Model.v
theories/Matrix_Spec.v
theories/Matrix_Proofs.v
theories/Matrix_Ops.v
theories/Matrix_Safe.v
theories/Matrix_Props.v
theories/Group_Model.v
theories/Group_Spec.v
theories/Group_Proofs.v
theories/Group_Ends.v
theories/Group_Same.v
theories/Group_Alike.v
theories/Group_Poison.v
theories/Group_Props.v
theories/OneOf_Model.v
theories/OneOf_Spec.v
theories/OneOf_Proofs.v
theories/OneOf_Props.v
theories/TypeFun_Model.v
theories/TypeFun_Spec.v
theories/TypeFun_Proofs.v
theories/TypeFun_Props.v
theories/CCache_Model.v
theories/CCache_Spec.v
theories/CCache_Proofs.v
theories/CCache_Props.v
