-Q theories Verif
theories/Common.v
theories/MemModel.v
theories/CommonProofs.v
theories/MemProofs.v
theories/AllocModel.v
theories/MemSpec.v
theories/MemFindProofs.v
theories/AllocProofs.v
theories/MemPropProofs.v
theories/MemProps.v
theories/ArrayModel.v
theories/ArraySpec.v
theories/ArrayProofs.v
theories/ArrayPropProofs.v
theories/ArrayProps.v
theories/HashtableModel.v
theories/HashtableSpec.v
theories/HashtableProofs.v
theories/HashtablePropProofs.v
theories/HashtableProps.v
theories/HashModel.v
theories/HashSpec.v
theories/HashProofs.v
theories/HashProps.v
theories/Text.v
theories/StrOpsModel.v
theories/StrOpsSpec.v
theories/StrOpsProofs.v
theories/StrOpsProofs2.v
theories/StrOpsProofs3.v
theories/StrOpsProps.v
theories/StrModel.v
theories/StrSpec.v
theories/StrProofs.v
theories/StrProofs2.v
theories/StrProps.v
theories/InternModel.v
theories/InternSpec.v
theories/InternProofs.v
theories/InternProofs2.v
theories/InternProps.v
theories/MakeCodeModel.v
theories/MakeCodeSpec.v
theories/MakeCodeProofs.v
theories/MakeCodePropProofs.v
theories/MakeCodeProps.v
theories/AstModel.v
theories/AstSpec.v
theories/AstProofs.v
theories/AstProofs2.v
theories/AstProofs3.v
theories/AstProofs4.v
theories/AstProps.v
theories/EnumModel.v
theories/EnumSpec.v
theories/EnumProofs.v
theories/EnumProps.v
theories/FmtModel.v
theories/FmtSpec.v
theories/FmtProofs.v
theories/FmtProps.v
theories/TokFmtModel.v
theories/TokFmtSpec.v
theories/TokFmtProofs.v
theories/TokFmtProps.v
theories/EqModel.v
theories/EqSpec.v
theories/EqProofs.v
theories/EqProps.v
theories/UpfrontModel.v
theories/UpfrontSpec.v
theories/UpfrontProofs.v
theories/UpfrontProofs2.v
theories/UpfrontProofs3.v
theories/UpfrontProofs4.v
theories/UpfrontProps.v
theories/CommentModel.v
theories/CommentSpec.v
theories/CommentProofs.v
theories/CommentProofs2.v
theories/CommentProofs3.v
theories/CommentProps.v
theories/LexModel.v
theories/LexSpec.v
theories/LexProofs.v
theories/LexProofs2.v
theories/LexProofs3.v
theories/LexProofs4.v
theories/LexProofs5.v
theories/LexProofs6.v
theories/LexProofs7.v
theories/LexProofs8.v
theories/LexProps.v
theories/NavModel.v
theories/NavSpec.v
theories/NavProofs.v
theories/NavProps.v
theories/StripModel.v
theories/StripSpec.v
theories/StripProofs.v
theories/StripProofs2.v
theories/StripProofs3.v
theories/StripProofs4.v
theories/StripProps.v
theories/SerModel.v
theories/SerSpec.v
theories/SerProofs.v
theories/SerProofs2.v
theories/SerProofs3.v
theories/SerProofs4.v
theories/SerProofs5.v
theories/SerProps.v
theories/CsvModel.v
theories/CsvSpec.v
theories/CsvProofs.v
theories/CsvProofs2.v
theories/CsvProofs3.v
theories/CsvProps.v
theories/ScanModel.v
theories/ScanSpec.v
theories/ScanProofs.v
theories/ScanProps.v
theories/RelexSpec.v
theories/RelexProofs.v
theories/RelexProofs2.v
theories/RelexProofs3.v
theories/RelexProofs4.v
theories/RelexProofs5.v
theories/RelexProofs6.v
theories/RelexProofs7.v
theories/RelexProps.v
theories/ParseModel.v
theories/ParseSpec.v
theories/ParseProofs.v
theories/ParseProofs2.v
theories/ParseProofs3.v
theories/ParseProofs4.v
theories/ParseProofs5.v
theories/ParseProofs6.v
theories/ParseProofs7.v
theories/ParseProofs8.v
theories/ParseProofs9.v
theories/ParseProofs10.v
theories/ParseProofs11.v
theories/ParseProps.v
theories/RoundSpec.v
theories/RoundProofs.v
theories/RoundProofs2.v
theories/RoundProofs3.v
theories/RoundProofs4.v
theories/RoundProofs5.v
theories/RoundProofs6.v
theories/RoundProofs7.v
theories/RoundProofs8.v
theories/RoundProps.v
theories/UntypedModel.v
theories/UntypedProofs.v
theories/UntypedProps.v
theories/BuilderModel.v
theories/BuilderSpec.v
theories/BuilderProofs.v
theories/BuilderProps.v
theories/StreamModel.v
theories/StreamSpec.v
theories/StreamProofs.v
theories/StreamProps.v
theories/FallbackModel.v
theories/FallbackSpec.v
theories/FallbackProofs.v
theories/FallbackProps.v
theories/FnModel.v
theories/FnSpec.v
theories/FnProofs.v
theories/FnProofs2.v
theories/FnProofs3.v
theories/FnProofs4.v
theories/FnProofs5.v
theories/FnProps.v
theories/GlobalModel.v
theories/GlobalSpec.v
theories/GlobalProofs.v
theories/GlobalProofs2.v
theories/GlobalProofs3.v
theories/GlobalProofs4.v
theories/GlobalProofs5.v
theories/GlobalProofs6.v
theories/GlobalProofs7.v
theories/GlobalProofs8.v
theories/GlobalProofs9.v
theories/GlobalProofs10.v
theories/GlobalProofs11.v
theories/GlobalProps.v
theories/ClassProofs.v
theories/ClassProofs2.v
theories/ClassProofs3.v
theories/ClassProofs4.v
theories/ClassProps.v
theories/FileSpec.v
theories/FileProofs.v
theories/FileProofs2.v
theories/FileProofs3.v
theories/FileProofs4.v
theories/FileProofs5.v
theories/FileProps.v
theories/FileFnProofs.v
theories/FileNestSpec.v
theories/FileNestProofs.v
theories/FileNestProofs2.v
theories/FileNestProps.v
theories/FriendModel.v
theories/FriendSpec.v
theories/FriendProofs.v
theories/FriendProps.v
theories/UnionProofs.v
theories/UnionProofs2.v
theories/UnionProps.v
theories/FriendProofs2.v
theories/VarProofs.v
theories/VarProps.v
theories/UnionProofs3.v
