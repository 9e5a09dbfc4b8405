-Q theories Verif

theories/Base.v
theories/M_Names.v
theories/M_Descriptors.v
theories/M_ConstantPool.v
theories/M_Bytecode.v
theories/M_Attributes.v
theories/M_Class.v
theories/M_Cesu8.v
theories/Data.v
theories/S_Lang.v
theories/S_Names.v
theories/S_Format.v
theories/P_Reads.v
theories/P_Tac.v
theories/P_Names.v
theories/P_Descriptors.v
theories/P_Pool.v
theories/P_Pool2.v
theories/P_Pool3.v
theories/P_Pool4.v
theories/P_Refs.v
theories/P_Insn.v
theories/P_Insn2.v
theories/P_Bytecode.v
theories/P_Attributes.v
theories/P_Attr2.v
theories/P_Attr3.v
theories/P_Class.v
theories/P_Class2.v
theories/P_Depth.v
theories/S_Env.v
theories/Sample.v
theories/P_Class3.v
theories/S_Within.v
theories/P_Within.v
theories/S_Pool.v
theories/P_Layout.v
theories/T_Names.v
theories/T_Class.v
theories/T_Members.v
theories/P_Code.v
theories/T_Bytecode.v
theories/S_Contents.v
theories/T_Contents.v
theories/S_Frame.v
theories/P_Flat.v
theories/T_Attributes.v
theories/S_Strip.v
theories/T_Options.v
theories/S_Grow.v
theories/P_Grow.v
theories/T_Unknown.v
theories/S_Items.v
theories/T_Iter.v
theories/S_Utf.v
theories/T_Text.v
theories/P_Safe.v
theories/P_Safe2.v
theories/P_Safe3.v
theories/S_Safe.v
theories/P_Safe4.v
theories/P_Safe5.v
theories/P_Safe6.v
theories/S_Better.v
theories/P_Better.v
theories/T_Safe.v
theories/P_Deep.v
theories/T_Deep.v
theories/S_Size.v
theories/P_Size.v
theories/T_Size.v
theories/S_Texts.v
theories/P_Texts.v
theories/T_Strings.v
theories/M_Locks.v
theories/P_Locks.v
theories/P_Locks2.v
theories/P_Locks3.v
theories/S_Locks.v
theories/T_Locks.v
theories/M_Drop.v
theories/S_Drop.v
theories/P_Drop.v
theories/T_Drop.v
theories/M_DropData.v
theories/T_DropData.v
theories/M_ParseLocks.v
theories/P_ParseLocks.v
theories/T_ParseLocks.v
theories/T_Search.v
theories/T_Errors.v
theories/S_Faults.v
theories/P_Faults.v
theories/P_Faults2.v
theories/P_Faults3.v
theories/T_Faults.v
theories/T_Faults2.v
theories/Z_Cow.v
theories/Z_Descriptors.v
theories/Z_ConstantPool.v
theories/Z_Bytecode.v
theories/Z_Attributes.v
theories/Z_Plain.v
theories/Z_Class.v
theories/S_ZeroCopy.v
theories/P_ZeroUtf.v
theories/P_Zero.v
theories/P_Zero2.v
theories/P_Zero3.v
theories/P_Zero4.v
theories/T_ZeroCopy.v
theories/T_Cycles.v
theories/S_Heap.v
theories/P_Heap.v
theories/P_Heap2.v
theories/P_Heap3.v
theories/P_Heap4.v
theories/T_Heap.v
theories/R_Base.v
theories/R_Bytecode.v
theories/R_Attributes.v
theories/R_Class.v
theories/P_Reserve.v
theories/P_Reserve2.v
theories/P_Reserve3.v
theories/P_Reserve4.v
theories/P_Reserve5.v
theories/P_Reserve6.v
theories/P_Reserve7.v
theories/P_Reserve8.v
theories/T_Reserve.v
theories/S_Panics.v
theories/P_Panics.v
theories/P_Panics2.v
theories/T_Panics.v
theories/W_Base.v
theories/W_Descriptors.v
theories/W_ConstantPool.v
theories/W_Bytecode.v
theories/W_Attributes.v
theories/W_Class.v
theories/P_Work.v
theories/P_Work2.v
theories/P_Work3.v
theories/P_Work4.v
theories/P_Work5.v
theories/P_Work6.v
theories/P_Work7.v
theories/P_Work8.v
theories/P_Work9.v
theories/T_Work.v
theories/S_Jvms.v
theories/P_Jvms.v
theories/T_Jvms.v
theories/S_Rewrite.v
theories/T_Rewrite.v
theories/T_Rewrite2.v
theories/P_Mono.v
theories/T_Rewrite3.v
theories/M_Traits.v
theories/S_Traits.v
theories/T_Traits.v
theories/M_Handover.v
theories/T_Handover.v
theories/M_Debug.v
theories/S_Debug.v
theories/T_Debug.v
theories/S_Early.v
theories/P_Early.v
theories/T_Early.v
theories/S_Conforming.v
theories/P_Conforming.v
theories/P_Conforming2.v
theories/T_Conforming.v
theories/S_Assemble.v
theories/P_Assemble.v
theories/T_Assemble.v
theories/S_Lost.v
theories/P_Lost.v
theories/T_Lost.v
theories/W_Iter.v
theories/P_Choir.v
theories/T_Work2.v
theories/S_Messages.v
theories/P_Messages.v
theories/P_Messages2.v
theories/T_Messages.v
theories/P_Contexts.v
theories/P_Contexts2.v
theories/P_Contexts3.v
theories/T_Contexts.v
theories/P_Brief.v
theories/P_Brief2.v
theories/T_Brief.v
theories/S_Renumber.v
theories/P_Renumber.v
theories/P_Renumber2.v
theories/T_Renumber.v
theories/S_Combine.v
theories/T_Combine.v
theories/S_Trim.v
theories/T_Trim.v
theories/S_Anywhere.v
theories/T_Anywhere.v
theories/S_Exchange.v
theories/T_Exchange.v
theories/S_Fewer.v
theories/T_Fewer.v
theories/S_Rename.v
theories/T_Rename.v
theories/S_Written.v
theories/T_Written.v
theories/T_All.v
