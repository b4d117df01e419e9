-Q theories Verif
theories/AssemblyScript.v
theories/AssemblyScriptFacts.v
theories/Blocks.v
theories/BlocksFacts.v
theories/BoilerplateFacts.v
theories/BoilerplateFiles.v
theories/Bytes.v
theories/BytesFacts.v
theories/C.v
theories/CClassFacts.v
theories/CDeclFacts.v
theories/CDeclSpec.v
theories/CFunFacts.v
theories/CFunSpec.v
theories/CReadFacts.v
theories/CSharp.v
theories/CSharpClassFacts.v
theories/CSharpFacts.v
theories/CSharpFieldFacts.v
theories/CSharpMethodFacts.v
theories/CSharpMethodSpec.v
theories/CSharpSyntax.v
theories/CSharpSyntaxFacts.v
theories/CSharpText.v
theories/CSharpTextFacts.v
theories/CSharpTopFacts.v
theories/CSpec.v
theories/CStreamFacts.v
theories/CSyntax.v
theories/CSyntaxFacts.v
theories/CText.v
theories/CTextFacts.v
theories/CWriteFacts.v
theories/Cli.v
theories/CliSpec.v
theories/CodecSpec.v
theories/CommentFacts.v
theories/CommentSpec.v
theories/Cross.v
theories/CutFacts.v
theories/Dec.v
theories/DecFacts.v
theories/FieldFacts.v
theories/FieldSpec.v
theories/Go.v
theories/GoClassFacts.v
theories/GoDec.v
theories/GoFacts.v
theories/GoFieldFacts.v
theories/GoMethodFacts.v
theories/GoMethodSpec.v
theories/GoSpec.v
theories/GoSyntax.v
theories/GoSyntaxFacts.v
theories/GoText.v
theories/GoTextFacts.v
theories/GoTopFacts.v
theories/GoTopSpec.v
theories/GrowFacts.v
theories/GrowFileFacts.v
theories/GrowSpec.v
theories/IR.v
theories/IRFacts.v
theories/IndentFacts.v
theories/IndentSpec.v
theories/Lang.v
theories/LangFacts.v
theories/LangSampleFacts.v
theories/LangSamples.v
theories/LangSpec.v
theories/Lines.v
theories/LinesFacts.v
theories/LinesSpec.v
theories/LoadFacts.v
theories/LoadSpec.v
theories/LocalsFacts.v
theories/LooseFacts.v
theories/Measure.v
theories/MeasureFacts.v
theories/OverlongFacts.v
theories/PropAssemblyScript.v
theories/PropAssemblyScriptFacts.v
theories/PropBoilerplate.v
theories/PropBoilerplateFacts.v
theories/PropC.v
theories/PropCDecl.v
theories/PropCDeclFacts.v
theories/PropCFacts.v
theories/PropCFun.v
theories/PropCFunFacts.v
theories/PropCSharp.v
theories/PropCSharpFacts.v
theories/PropCli.v
theories/PropCliFacts.v
theories/PropComment.v
theories/PropCommentFacts.v
theories/PropCross.v
theories/PropCrossFacts.v
theories/PropField.v
theories/PropFieldFacts.v
theories/PropGo.v
theories/PropGoFacts.v
theories/PropGrow.v
theories/PropGrowFacts.v
theories/PropIndent.v
theories/PropIndentFacts.v
theories/PropLoad.v
theories/PropLoadFacts.v
theories/PropMethod.v
theories/PropMethodFacts.v
theories/PropNesting.v
theories/PropNestingFacts.v
theories/PropPrinted.v
theories/PropPrintedFacts.v
theories/PropProtocol.v
theories/PropProtocolFacts.v
theories/PropRust.v
theories/PropRustFacts.v
theories/PropScopes.v
theories/PropScopesFacts.v
theories/PropSwift.v
theories/PropSwiftFacts.v
theories/PropText.v
theories/PropTextFacts.v
theories/PropTop.v
theories/PropTopFacts.v
theories/PropTypeScript.v
theories/PropTypeScriptFacts.v
theories/PropWire.v
theories/PropWireFacts.v
theories/PropZig.v
theories/PropZigFacts.v
theories/Protocol.v
theories/ProtocolFacts.v
theories/ProtocolFacts2.v
theories/ProtocolFacts3.v
theories/ProtocolFacts4.v
theories/ProtocolSpec.v
theories/ReaderFacts.v
theories/Rename.v
theories/RenameFacts.v
theories/Rust.v
theories/RustClassFacts.v
theories/RustFacts.v
theories/RustFieldFacts.v
theories/RustMethodFacts.v
theories/RustMethodSpec.v
theories/RustSyntax.v
theories/RustSyntaxFacts.v
theories/RustText.v
theories/RustTextFacts.v
theories/RustTopFacts.v
theories/Samples.v
theories/Scopes.v
theories/ScopesFacts.v
theories/ScopesSpec.v
theories/SplitFacts.v
theories/SplitSpec.v
theories/Stream.v
theories/StreamFacts.v
theories/Swift.v
theories/SwiftClassFacts.v
theories/SwiftFacts.v
theories/SwiftFieldFacts.v
theories/SwiftMethodFacts.v
theories/SwiftMethodSpec.v
theories/SwiftSyntax.v
theories/SwiftSyntaxFacts.v
theories/SwiftText.v
theories/SwiftTextFacts.v
theories/SwiftTopFacts.v
theories/Syntax.v
theories/SyntaxFacts.v
theories/TextFacts.v
theories/TextSpec.v
theories/TextUtil.v
theories/TopFacts.v
theories/TopSpec.v
theories/TypeScript.v
theories/TypeScriptClassFacts.v
theories/TypeScriptFacts.v
theories/TypeScriptFieldFacts.v
theories/TypeScriptMethodFacts.v
theories/TypeScriptMethodSpec.v
theories/TypeScriptSyntax.v
theories/TypeScriptSyntaxFacts.v
theories/TypeScriptText.v
theories/TypeScriptTextFacts.v
theories/TypeScriptTopFacts.v
theories/Utf8.v
theories/Utf8Facts.v
theories/Wire.v
theories/WireExec.v
theories/WireFacts.v
theories/WireSamples.v
theories/WriterFacts.v
theories/Zig.v
theories/ZigClassFacts.v
theories/ZigFacts.v
theories/ZigFieldFacts.v
theories/ZigMemory.v
theories/ZigMemoryFacts.v
theories/ZigMemorySpec.v
theories/ZigSpec.v
theories/ZigSyntax.v
theories/ZigSyntaxFacts.v
theories/ZigText.v
theories/ZigTextFacts.v
theories/ZigTopFacts.v
