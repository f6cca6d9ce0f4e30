-Q theories Verif
theories/Base.v
theories/ListFacts.v
theories/PieceTable.v
theories/PieceTableSpec.v
theories/PieceTableFacts.v
theories/PieceTableEdits.v
theories/PieceTableDelete.v
theories/History.v
theories/HistoryFacts.v
theories/PropPiece.v
theories/Coords.v
theories/LineSpec.v
theories/LineFacts.v
theories/CoordsFacts.v
theories/GraphemeInst.v
theories/CoordsMore.v
theories/PropCoords.v
theories/Utf8.v
theories/Diff.v
theories/DiffSpec.v
theories/DiffFacts.v
theories/DiffApply.v
theories/PropDiff.v
theories/Range.v
theories/PropRange.v
theories/Selection.v
theories/NavSpec.v
theories/NavFacts.v
theories/PropNav.v
theories/Maps.v
theories/StackMap.v
theories/PropStackMap.v
theories/Fmt.v
theories/Buffer.v
theories/View.v
theories/ViewSpec.v
theories/ViewFacts.v
theories/PropView.v
theories/NotifFacts.v
theories/PropNotif.v
theories/Utf8Spec.v
theories/Utf8Facts.v
theories/PropUtf8.v
theories/PropNotifUtf8.v
theories/DiffLcs.v
theories/Core.v
theories/CoreSpec.v
theories/CoreInv.v
theories/CoreOps.v
theories/PropCore.v
theories/CoreTame.v
theories/CoreSafe.v
theories/CoreDelete.v
theories/CoreSafeMore.v
theories/PropSafe.v
theories/PropDelete.v
theories/PropContext.v
theories/Json.v
theories/JsonFacts.v
theories/Proto.v
theories/ProtoFacts.v
theories/PropProto.v
theories/Chars.v
theories/Normalize.v
theories/PropNormalize.v
theories/PropLog.v
theories/Keys.v
theories/PropKeys.v
theories/Modal.v
theories/PropModal.v
theories/Names.v
theories/PropNames.v
theories/Session.v
theories/PropSession.v
theories/Payload.v
theories/Conn.v
theories/PropConn.v
theories/Ffi.v
theories/PropFfi.v
theories/Menu.v
theories/MenuSpec.v
theories/MenuFacts.v
theories/MenuMatch.v
theories/PropMenu.v
theories/Editor.v
theories/EditorSpec.v
theories/EditorFacts.v
theories/PropEditor.v
theories/EditorTame.v
theories/PropEditorSafe.v
theories/EditorDemo.v
theories/Server.v
theories/ServerSpec.v
theories/ServerFacts.v
theories/PropServer.v
theories/ServerTame.v
theories/PropServerSafe.v
theories/ServerDemo.v
theories/Standalone.v
theories/PropStandalone.v
theories/StandaloneDemo.v
theories/Tui.v
theories/TuiSpec.v
theories/TuiFacts.v
theories/PropTui.v
theories/PropTuiMenu.v
theories/PropTuiKeys.v
theories/PropTuiScreen.v
theories/TuiDemo.v
theories/Profiles.v
theories/CoreAll.v
theories/PropCoreAll.v
theories/PropProfiles.v
theories/Shipped.v
theories/PropShipped.v
theories/PropTyping.v
theories/PropHint.v
theories/Script.v
theories/PropScript.v
theories/Daemon.v
theories/PropDaemon.v
theories/PropList.v
theories/FfiGen.v
theories/PropFfiGen.v
theories/FreshSpec.v
theories/PropFresh.v
theories/StandLoop.v
theories/PropStandLoop.v
theories/StandLoopDemo.v
theories/Relay.v
theories/RelayFacts.v
theories/PropRelay.v
theories/PropShown.v
theories/System.v
theories/SystemSpec.v
theories/SystemFacts.v
theories/PropSystem.v
theories/SystemDemo.v
theories/Stream.v
theories/PropStream.v
theories/StreamDemo.v
theories/PropTuiFinal.v
theories/Terminal.v
theories/TerminalSpec.v
theories/PropTerminal.v
theories/TerminalDemo.v
theories/SoloSpec.v
theories/PropSolo.v
theories/PropOneUser.v
theories/OneUserDemo.v
theories/FileSpec.v
theories/PropFile.v
theories/PropCedFile.v
theories/CedFileDemo.v
theories/FfiHeap.v
theories/PropFfiHeap.v
theories/MenuOpen.v
theories/MenusSpec.v
theories/PropMenus.v
theories/MenusDemo.v
theories/FileSyncSpec.v
theories/FileSync.v
theories/PropFileSync.v
theories/JsonSpec.v
theories/JsonSpelling.v
theories/PropJson.v
theories/Place.v
theories/PropPlace.v
theories/Wire.v
theories/WireSpec.v
theories/PropWire.v
theories/Tty.v
theories/PropTty.v
theories/PropFileNames.v
theories/PropText.v
theories/TextDemo.v
theories/Cli.v
theories/CliSpec.v
theories/PropCli.v
theories/ShapeSpec.v
theories/PropShape.v
theories/ShapeDemo.v
theories/Conformance.v
theories/RequestSpec.v
theories/PropRequest.v
theories/RequestDemo.v
