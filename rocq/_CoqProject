-Q theories Verif
theories/Base.v
theories/Regex.v
theories/LexRules.v
theories/FlexTables.v
theories/Flex.v
theories/LexCorrect.v
theories/LexWhole.v
theories/LexLoc.v
theories/LexStep.v
theories/LexProps.v
theories/LexBlank.v
theories/LexMore.v
theories/LexGap.v
theories/LineEnds.v
theories/P_Lex.v
theories/Map.v
theories/Items.v
theories/Decimal.v
theories/BisonTables.v
theories/Bison.v
theories/Grammar.v
theories/LR.v
theories/LRSim.v
theories/Parse.v
theories/GramSim.v
theories/ParseSpec.v
theories/ParseCorrect.v
theories/Cfg.v
theories/ParseLang.v
theories/P_Parse.v
theories/Store.v
theories/Resolve.v
theories/StoreProps.v
theories/StoreDefs.v
theories/StoreRedef.v
theories/ResolveProps.v
theories/ItemsEnd.v
theories/P_Items.v
theories/Fmt.v
theories/Templates.v
theories/Emit.v
theories/Shipped.v
theories/EmitCheck.v
theories/Cpp.v
theories/CppH.v
theories/HeadSpec.v
theories/Xml.v
theories/Val.v
theories/Rx.v
theories/CppSem.v
theories/SymLex.v
theories/SymParse.v
theories/Ast.v
theories/PrintXa.v
theories/PrintXm.v
theories/PrintEnum.v
theories/PrintIni.v
theories/PrintFile.v
theories/PrintH.v
theories/Direct.v
theories/DirectFiles.v
theories/DecText.v
theories/Prog.v
theories/Header.v
theories/EnumSem.v
theories/EnumCall.v
theories/MainTemplates.v
theories/Main.v
theories/MainProps.v
theories/RunProps.v
theories/Link.v
theories/Pipeline.v
theories/HeadProps.v
theories/Found.v
theories/EmitProps.v
theories/EnumRound.v
theories/XmlSpec.v
theories/XmlRdSimple.v
theories/XmlRead.v
theories/XmlReader.v
theories/XmlCall.v
theories/XmlWrite.v
theories/XmlWriter.v
theories/XmlFile.v
theories/XmlCarry.v
theories/XmlRound.v
theories/XmlProps.v
theories/XmlReadProps.v
theories/XmlThms.v
theories/XmlCase.v
theories/P_Emit.v
theories/P_Enum.v
theories/P_Main.v
theories/P_Xml.v
theories/IniSpec.v
theories/IniRead.v
theories/IniReader.v
theories/IniCall.v
theories/IniLines.v
theories/IniFile.v
theories/IniEntry.v
theories/IniWrite.v
theories/IniWriter.v
theories/IniScan.v
theories/IniBlock.v
theories/IniKeep.v
theories/IniRound.v
theories/IniBack.v
theories/IniThms.v
theories/IniCase.v
theories/P_Ini.v
theories/ConfSpec.v
theories/ConfRead.v
theories/ConfRound.v
theories/P_Conf.v
theories/P_Head.v
theories/Layout.v
theories/Lexable.v
theories/LineParse.v
theories/Shape.v
theories/Erase.v
theories/Depend.v
theories/P_Text.v
theories/P_Again.v
theories/Console.v
theories/P_Console.v
theories/P_Whole.v
theories/XmlBlank.v
theories/P_Serve.v
theories/Stamp.v
theories/P_Stamp.v
theories/Buffer.v
theories/BufferProps.v
theories/BufferStep.v
theories/BufferScan.v
theories/P_Buffer.v
theories/BisonStos.v
theories/ParserMem.v
theories/ParserMemProps.v
theories/Front.v
theories/P_Mem.v
theories/Lit.v
theories/LitProps.v
theories/P_Lit.v
theories/Cxx.v
theories/CxxProps.v
theories/P_Cxx.v
theories/P_Ship.v
theories/XmlText.v
theories/XmlTextSpec.v
theories/XmlTextRead.v
theories/XmlPrint.v
theories/XmlBytes.v
theories/XmlCut.v
theories/P_File.v
theories/XmlUp.v
theories/P_Evolve.v
theories/XmlOrder.v
theories/P_Order.v
theories/IniText.v
theories/IniMean.v
theories/P_IniText.v
theories/IniVersions.v
theories/P_IniVersion.v
theories/IniCut.v
theories/P_IniCut.v
theories/IniRange.v
theories/IniExact.v
theories/P_IniRange.v
theories/NumText.v
theories/IniLocal.v
theories/P_IniNumber.v
theories/XmlMean.v
theories/P_XmlMean.v
theories/P_IniExact.v
theories/P_LitText.v
