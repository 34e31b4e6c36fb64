-Q theories Verif
theories/Base.v
theories/BaseFacts.v
theories/Types.v
theories/Utf8.v
theories/ParseBuf.v
theories/Spec_Wire.v
theories/ParseBuf_proofs.v
theories/BufMut.v
theories/Framing.v
theories/Framing_proofs.v
theories/ValueBin.v
theories/NullBitmap.v
theories/StmtPackets.v
theories/Spec_Stmt.v
theories/ValueBin_proofs.v
theories/NullBitmap_proofs.v
theories/StmtPackets_proofs.v
theories/Rows.v
theories/Spec_Text.v
theories/ValueText.v
theories/Escape_proofs.v
theories/Hex.v
theories/Hex_proofs.v
theories/Rows_proofs.v
theories/ValueText_proofs.v
theories/Conversion.v
theories/Conversion_proofs.v
theories/Spec_Conv.v
theories/Packets.v
theories/Packets_proofs.v
theories/Spec_Packets.v
theories/Crypt.v
theories/Scramble.v
theories/Crypt_proofs.v
theories/Spec_Crypt.v
theories/Pem_proofs.v
theories/Handshake.v
theories/Auth.v
theories/Auth_proofs.v
theories/Handshake_proofs.v
theories/Spec_Auth.v
theories/Spec_Handshake.v
theories/Conn.v
theories/Conn_proofs.v
theories/Spec_Conn.v
theories/Pool.v
theories/Pool_proofs.v
theories/Spec_Pool.v
theories/Migrator.v
theories/Migrator_proofs.v
theories/Spec_Migrate.v
theories/Model_proofs.v
theories/Models.v
theories/Spec_Model.v
theories/Fault_proofs.v
theories/Spec_Fault.v
theories/Connect_proofs.v
theories/Options.v
theories/Spec_Connect.v
theories/Panic_proofs.v
theories/Spec_Panic.v
theories/Sending_proofs.v
theories/Spec_Sending.v
theories/Mapping_proofs.v
theories/Spec_Mapping.v
theories/Debug.v
theories/Debug_proofs.v
theories/Spec_Debug.v
theories/FieldTypes.v
theories/FieldTypes_proofs.v
theories/Spec_FieldTypes.v
theories/Shared.v
theories/Shared_proofs.v
theories/Spec_Shared.v
theories/SimpleMigration.v
theories/Simple_proofs.v
theories/Spec_Simple.v
theories/DeriveAttr.v
theories/DeriveAttr_proofs.v
theories/Spec_DeriveAttr.v
theories/CrateTests.v
theories/Timed.v
theories/Timed_proofs.v
theories/Peer.v
theories/Peer_proofs.v
theories/Spec_Peer.v
theories/Spec_TextForms.v
theories/TextForms_proofs.v
theories/Cut_proofs.v
theories/Key_proofs.v
theories/Spec_Key.v
theories/Spec_Typed.v
theories/TypedModel.v
theories/Typed_proofs.v
theories/Engine_proofs.v
theories/Spec_Engine.v
theories/Spec_Engine_run.v
theories/Spec_Active.v
theories/Active_proofs.v
theories/ModelWire.v
theories/ModelWire_proofs.v
theories/Spec_ModelWire.v
theories/Flush.v
theories/Flush_proofs.v
theories/Spec_Flush.v
theories/Greeting_proofs.v
theories/SerdeHex.v
theories/Spec_Serde.v
theories/Spec_Concurrent.v
theories/DeriveNames.v
theories/Spec_Names.v
theories/Features.v
theories/Features_proofs.v
theories/Spec_Features.v
theories/Report_proofs.v
theories/Spec_Report.v
theories/Accept_proofs.v
theories/Spec_Accept.v
theories/RowForms_proofs.v
theories/Spec_RowForms.v
theories/One_proofs.v
theories/Spec_One.v
theories/Answer_proofs.v
theories/Spec_Answer.v
theories/Program.v
theories/Program_proofs.v
theories/Spec_Program.v
theories/MigratorWire.v
theories/MigratorWire_proofs.v
theories/Spec_MigratorWire.v
theories/PrimaryAddress.v
theories/PrimaryAddress_proofs.v
theories/Spec_PrimaryAddress.v
theories/PoolMigrator.v
theories/PoolMigrator_proofs.v
theories/Spec_PoolMigrator.v
theories/Break_proofs.v
theories/Spec_Break.v
theories/Shown.v
theories/Shown_proofs.v
theories/Spec_Shown.v
theories/Memory.v
theories/Memory_proofs.v
theories/Waiters_proofs.v
theories/Forged_proofs.v
theories/Injected_proofs.v
theories/Spec_Injected.v
theories/LongData_proofs.v
theories/Spec_LongData.v
theories/Spec_Sql.v
theories/Sql_proofs.v
theories/Spec_Stored.v
theories/Stored_proofs.v
theories/FormatSpec.v
theories/Format_proofs.v
theories/Spec_Format.v
theories/ConnData.v
theories/Data_proofs.v
theories/Spec_Data.v
theories/Spec_ValueEq.v
theories/ValueEq.v
theories/ValueEq_proofs.v
theories/Route_proofs.v
theories/Spec_Route.v
theories/Spec_TypedRoute.v
theories/TypedRoute_proofs.v
theories/RowErrors_proofs.v
theories/Spec_RowErrors.v
theories/Replace_proofs.v
theories/Spec_Replace.v
theories/RawNames_proofs.v
theories/Spec_RawNames.v
theories/NoBackslash_proofs.v
theories/Spec_NoBackslash.v
theories/LongEnd_proofs.v
theories/EndText_proofs.v
theories/Limit_proofs.v
theories/Spec_Limit.v
theories/OldServer_proofs.v
theories/Spec_OldServer.v
theories/ErrorRow_proofs.v
theories/Spec_ErrorRow.v
theories/OddModulus_proofs.v
theories/OkText_proofs.v
theories/LongName_proofs.v
theories/LongGreeting_proofs.v
theories/Goodbye_proofs.v
theories/MoreResults_proofs.v
theories/Shifted_proofs.v
theories/DeriveAll_proofs.v
theories/AnswerCut_proofs.v
theories/Spec_AnswerCut.v
theories/Properties_Framing.v
theories/Properties_Codec.v
theories/Properties_Stmt.v
theories/Properties_Rows.v
theories/Properties_Text.v
theories/Properties_Conv.v
theories/Properties_Packets.v
theories/Properties_Crypt.v
theories/Properties_Handshake.v
theories/Properties_Auth.v
theories/Properties_Command.v
theories/Properties_Pool.v
theories/Properties_Migrate.v
theories/Properties_Model.v
theories/Properties_Fault.v
theories/Properties_Connect.v
theories/Properties_Panic.v
theories/Properties_Sending.v
theories/Properties_Mapping.v
theories/Properties_Debug.v
theories/Properties_Unsafe.v
theories/Properties_FieldTypes.v
theories/Properties_Shared.v
theories/Properties_Simple.v
theories/Properties_DeriveAttr.v
theories/Properties_Version.v
theories/Properties_Timed.v
theories/Properties_Peer.v
theories/Properties_TextForms.v
theories/Properties_Key.v
theories/Properties_Typed.v
theories/Properties_Engine.v
theories/Properties_Active.v
theories/Properties_ModelWire.v
theories/Properties_Flush.v
theories/Properties_Serde.v
theories/Properties_Concurrent.v
theories/Properties_Names.v
theories/Properties_Features.v
theories/Properties_Report.v
theories/Properties_Accept.v
theories/Properties_RowForms.v
theories/Properties_One.v
theories/Properties_Mixed.v
theories/Properties_Answer.v
theories/Properties_Program.v
theories/Properties_MigratorWire.v
theories/Properties_PrimaryAddress.v
theories/Properties_PoolMigrator.v
theories/Properties_PoolLogin.v
theories/Properties_Break.v
theories/Properties_Shown.v
theories/Properties_Memory.v
theories/Properties_Waiters.v
theories/Properties_Forged.v
theories/Properties_Injected.v
theories/Properties_LongData.v
theories/Properties_Sql.v
theories/Properties_Stored.v
theories/Properties_Format.v
theories/Properties_Data.v
theories/Properties_ValueEq.v
theories/Properties_Route.v
theories/Properties_Strings.v
theories/Properties_Hello.v
theories/Properties_TypedRoute.v
theories/Properties_RowErrors.v
theories/Properties_Replace.v
theories/Properties_RawNames.v
theories/Properties_NoBackslash.v
theories/Properties_LongEnd.v
theories/Properties_EndText.v
theories/Properties_Limit.v
theories/Properties_OldServer.v
theories/Properties_ErrorRow.v
theories/Properties_OddModulus.v
theories/Properties_Refusals.v
theories/Properties_OkText.v
theories/Properties_LongName.v
theories/Properties_Greeting.v
theories/Properties_Goodbye.v
theories/Properties_MoreResults.v
theories/Properties_Shifted.v
theories/Properties_DeriveAll.v
theories/Properties_AnswerCut.v
