-Q theories Verif
theories/ArgAccept.v
theories/ArgGen.v
theories/ArgModel.v
theories/ArgPrograms.v
theories/ArgProofs.v
theories/ArgSound.v
theories/ArgSpec.v
theories/Base.v
theories/BuildGen.v
theories/BuildModel.v
theories/BuildProofs.v
theories/CarpalxModel.v
theories/CarpalxProofs.v
theories/CarpalxQ.v
theories/CarpalxShipped.v
theories/CarpalxSpec.v
theories/CsrcChunks.v
theories/CsrcLex.v
theories/CsrcLines.v
theories/CsrcModel.v
theories/CsrcProofs.v
theories/CsrcRead.v
theories/CsrcSpec.v
theories/CsrcTrees.v
theories/CurveModel.v
theories/DataCsrc.v
theories/DataFingermap.v
theories/DataKeyboard.v
theories/DataLayouts.v
theories/DataModels.v
theories/DataWinkbd.v
theories/ExportModel.v
theories/ExportProofs.v
theories/ExportSpec.v
theories/FilesModel.v
theories/FilesProofs.v
theories/FilesSpec.v
theories/FilterBrotli.v
theories/FilterHtml.v
theories/FilterModel.v
theories/FilterProofs.v
theories/FilterSpec.v
theories/FilterXml.v
theories/FontModel.v
theories/FontProofs.v
theories/FontSpec.v
theories/HeapModel.v
theories/HeapProofs.v
theories/HeapSpec.v
theories/IntrModel.v
theories/KeyboardModel.v
theories/KeyboardProofs.v
theories/KeyboardSpec.v
theories/KlcModel.v
theories/KlcProofs.v
theories/KlcSpec.v
theories/LayoutEq.v
theories/LayoutModel.v
theories/LayoutProofs.v
theories/LayoutSpec.v
theories/LetterModel.v
theories/LoaderModel.v
theories/MergeProofs.v
theories/OptArgs.v
theories/OptEnergy.v
theories/OptLayout.v
theories/OptMain.v
theories/OptModel.v
theories/OptProofs.v
theories/OptSpec.v
theories/PageModel.v
theories/PandocModel.v
theories/PipeModel.v
theories/PipeProofs.v
theories/PipeSpec.v
theories/PipeStats.v
theories/PlotModel.v
theories/PlotProofs.v
theories/PlotSpec.v
theories/PrettyModel.v
theories/PrettyTextModel.v
theories/PrettyTextSpec.v
theories/PropsArgs.v
theories/PropsBuild.v
theories/PropsCarpalx.v
theories/PropsCodes.v
theories/PropsCsrc.v
theories/PropsCurve.v
theories/PropsEq.v
theories/PropsExport.v
theories/PropsFiles.v
theories/PropsFont.v
theories/PropsFraction.v
theories/PropsHeat.v
theories/PropsIntr.v
theories/PropsKeyboard.v
theories/PropsKlc.v
theories/PropsLayout.v
theories/PropsLetter.v
theories/PropsLoader.v
theories/PropsOptimize.v
theories/PropsPage.v
theories/PropsPandoc.v
theories/PropsPipe.v
theories/PropsPlot.v
theories/PropsPretty.v
theories/PropsPrettyText.v
theories/PropsRender.v
theories/PropsReport.v
theories/PropsRetype.v
theories/PropsSettings.v
theories/PropsStart.v
theories/PropsStatEq.v
theories/PropsStats.v
theories/PropsSvg.v
theories/PropsTable.v
theories/PropsText.v
theories/PropsTools.v
theories/PropsUtil.v
theories/PropsWidget.v
theories/PropsWiki.v
theories/PropsWinkbd.v
theories/PropsWordlist.v
theories/PropsWriter.v
theories/PropsXml.v
theories/RenderModel.v
theories/RenderProofs.v
theories/ReportModel.v
theories/RetypeProofs.v
theories/RetypeSpec.v
theories/ShippedProofs.v
theories/StatEqModel.v
theories/StatsAll.v
theories/StatsModel.v
theories/StatsProofs.v
theories/StatsSpec.v
theories/SvgModel.v
theories/SvgSpec.v
theories/TableModel.v
theories/TableProofs.v
theories/TableSpec.v
theories/TextModel.v
theories/UnitTests.v
theories/UtilModel.v
theories/WidgetModel.v
theories/WidgetProofs.v
theories/WidgetSpec.v
theories/WikiModel.v
theories/WinkbdModel.v
theories/WinkbdProofs.v
theories/WinkbdSpec.v
theories/WordlistModel.v
theories/WordlistProofs.v
theories/WordlistSpec.v
theories/WriterHands.v
theories/WriterModel.v
theories/WriterProofs.v
theories/WriterSpec.v
theories/XmlModel.v
theories/XmlProofs.v
theories/XmlSpec.v
