-Q theories Verif
theories/Base.v
theories/Dec.v
theories/Regex.v
theories/DateModel.v
theories/DateSpec.v
theories/DateProofs.v
theories/DateProofs2.v
theories/DateProps.v
theories/PriceModel.v
theories/PriceSpec.v
theories/PriceProofs.v
theories/PriceProps.v
theories/BookModel.v
theories/BookSpec.v
theories/BookProofs.v
theories/BuilderProofs.v
theories/OpsModel.v
theories/OpsProofs.v
theories/OpsProofs2.v
theories/OpsProofs3.v
theories/BookProps.v
theories/RegisterModel.v
theories/RegisterSpec.v
theories/RegisterProofs.v
theories/RegisterProps.v
theories/AccumModel.v
theories/AccumSpec.v
theories/AccumProofs.v
theories/AccumProofs2.v
theories/AccumProofs3.v
theories/AccumProps.v
theories/Utf8.v
theories/LoaderModel.v
theories/LoaderSpec.v
theories/LoaderProofs.v
theories/LoaderProofs2.v
theories/LoaderProofs3.v
theories/LoaderProofs4.v
theories/LoaderProofs5.v
theories/LoaderProofs6.v
theories/LoaderProps.v
theories/ExportModel.v
theories/ExportSpec.v
theories/ExportProofs.v
theories/ExportProofs2.v
theories/ExportProofs3.v
theories/F64Model.v
theories/F64Spec.v
theories/F64Proofs.v
theories/ExportProps.v
theories/PrintModel.v
theories/PrintSpec.v
theories/PrintProofs.v
theories/PrintProofs2.v
theories/PrintProps.v
theories/ReportSpec.v
theories/PrintProofs3.v
theories/HtmlProofs.v
theories/ReportProps.v
theories/RegisterText.v
theories/BookOpModel.v
theories/BookOpSpec.v
theories/BookOpProofs.v
theories/BookOpProofs2.v
theories/BookOpProps.v
theories/DateProps2.v
theories/ScriptModel.v
theories/ScriptSpec.v
theories/ScriptProps.v
theories/DataExportModel.v
theories/DataExportSpec.v
theories/DataExportProps.v
theories/DataExportSpec2.v
theories/DataExportProps2.v
theories/CfgModel.v
theories/CfgSpec.v
theories/CfgProps.v
theories/DownloadModel.v
theories/DownloadSpec.v
theories/DownloadProps.v
theories/SaveModel.v
theories/SaveProps.v
theories/ConfigModel.v
theories/ConfigProps.v
theories/HeapModel.v
theories/HeapSpec.v
theories/HeapProofs.v
theories/HeapProofs2.v
theories/HeapProofs3.v
theories/HeapProofs4.v
theories/HeapProofs5.v
theories/HeapProofs6.v
theories/HeapProofs7.v
theories/HeapProofs8.v
theories/HeapProps.v
theories/HeapProps2.v
theories/ImportModel.v
theories/ImportSpec.v
theories/ImportProofs1.v
theories/ImportProofs2.v
theories/ImportProofs3.v
theories/ImportProps.v
theories/AppendSpec.v
theories/LoaderProofs7.v
theories/AppendProofs.v
theories/AppendProofs2.v
theories/AppendProps.v
theories/ImportProofs4.v
theories/AppendProps2.v
theories/GrammarSpec.v
theories/GrammarProofs.v
theories/GrammarProofs2.v
theories/GrammarProps.v
theories/CaptureModel.v
theories/CaptureSpec.v
theories/CaptureProps.v
theories/ConvertModel.v
theories/ConvertSpec.v
theories/ConvertProofs.v
theories/ConvertProps.v
theories/CmdModel.v
theories/CmdSpec.v
theories/CmdProofs.v
theories/CmdProps.v
theories/CmdProps2.v
theories/CmdProps3.v
theories/F64Props.v
theories/ViewModel.v
theories/ViewSpec.v
theories/ViewProps.v
theories/HeldModel.v
theories/HeldSpec.v
theories/HeldProofs.v
theories/HeldProps.v
theories/PosModel.v
theories/PosSpec.v
theories/PosProofs.v
theories/PosProofs2.v
theories/PosProofs3.v
theories/PosProofs4.v
theories/PosProps.v
theories/JsonModel.v
theories/JsonSpec.v
theories/JsonNum.v
theories/JsonWrite.v
theories/JsonWrite2.v
theories/JsonWrite3.v
theories/JsonProps.v
theories/JsonRead.v
theories/JsonRead2.v
theories/JsonReadProps.v
theories/StateModel.v
theories/StateSpec.v
theories/StateProofs.v
theories/StateProofs2.v
theories/StateProofs3.v
theories/StateCut.v
theories/StateExact.v
theories/StateProps.v
theories/StateProps2.v
theories/ShapeModel.v
theories/StarlingModel.v
theories/StarlingSpec.v
theories/ShapeProofs.v
theories/StarlingProofs.v
theories/StarlingProofs2.v
theories/StarlingProps.v
theories/StarlingProps2.v
theories/NullProps.v
theories/NordigenModel.v
theories/NordigenSpec.v
theories/NordigenProofs.v
theories/NordigenProps.v
theories/NordigenProps2.v
theories/IrrModel.v
theories/IrrSpec.v
theories/IrrProofs.v
theories/IrrProofs2.v
theories/IrrProofs3.v
theories/IrrProps.v
theories/IrrProps2.v
theories/DetSpec.v
theories/DetModel.v
theories/DetProofs.v
theories/DetProofs2.v
theories/DetProofs3.v
theories/DetProofs4.v
theories/DetProps.v
theories/DetProps2.v
theories/MigrateProps.v
theories/BalanceSpec.v
theories/BalanceProofs.v
theories/BalanceProps.v
theories/PagerModel.v
theories/PagerSpec.v
theories/PagerProps.v
theories/RegFileSpec.v
theories/RegFileProofs.v
theories/RegFileProps.v
theories/SortModel.v
theories/SortSpec.v
theories/SortProofs.v
theories/SortProps.v
theories/PlainTableSpec.v
theories/PlainTableProofs.v
theories/PlainTableProps.v
theories/AcctFileSpec.v
theories/AcctFileProps.v
theories/OptionsModel.v
theories/OptionsSpec.v
theories/OptionsProofs.v
theories/OptionsProps.v
theories/ImportOptModel.v
theories/ImportOptSpec.v
theories/ImportOptProofs.v
theories/ImportOptProps.v
theories/CommandProps.v
theories/AcctCmdProps.v
theories/RegCmdProps.v
theories/ExportCmdProps.v
