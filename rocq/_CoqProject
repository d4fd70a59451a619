-Q theories Verif
theories/PyStr.v
theories/PyStrFacts.v
theories/PyRe.v
theories/RefModel.v
theories/RefSpec.v
theories/RefProofs.v
theories/UrnModel.v
theories/UrnSpec.v
theories/UrnProofs.v
theories/CiteModel.v
theories/CiteSpec.v
theories/CiteProofs.v
theories/FillModel.v
theories/FillProofs.v
theories/SchemeModel.v
theories/SchemeSpec.v
theories/SchemeProofs.v
theories/Json.v
theories/TreeModel.v
theories/TreeSpec.v
theories/TreeProofs.v
theories/XmlModel.v
theories/XmlSpec.v
theories/XmlProofs.v
theories/XPathModel.v
theories/TemplateSpec.v
theories/TemplateProofs.v
theories/PassageModel.v
theories/PassageSpec.v
theories/PassageProofs.v
theories/PassageTree.v
theories/PassageNav.v
theories/PassageWords.v
theories/PassageRange.v
theories/PassageApi.v
theories/PassageFinal.v
theories/PassageCheck.v
theories/MetaModel.v
theories/MetaSpec.v
theories/MetaProofs.v
theories/CollModel.v
theories/CollSpec.v
theories/CollProofs.v
theories/CollHist.v
theories/CollDelete.v
theories/CollMerge.v
theories/CollLang.v
theories/UtilModel.v
theories/UtilSpec.v
theories/UtilProofs.v
theories/ExportModel.v
theories/ExportProofs.v
theories/XmlNodeProofs.v
theories/GraphModel.v
theories/GraphSpec.v
theories/GraphProofs.v
theories/TeiModel.v
theories/TeiSpec.v
theories/TeiProofs.v
theories/HttpModel.v
theories/HttpSpec.v
theories/HttpProofs.v
theories/RemoteModel.v
theories/RemoteSpec.v
theories/RemoteProofs.v
theories/DtsModel.v
theories/DtsSpec.v
theories/DtsProofs.v
theories/DtsLazy.v
theories/LocalModel.v
theories/LocalSpec.v
theories/LocalProofs.v
theories/Props_Ref.v
theories/Props_Urn.v
theories/Props_Cite.v
theories/Props_Tree.v
theories/Props_Xml.v
theories/Props_Passage.v
theories/Props_Meta.v
theories/Props_Coll.v
theories/Props_Util.v
theories/Props_Graph.v
theories/Props_Tei.v
theories/Props_Http.v
theories/Props_Remote.v
theories/Props_Local.v
theories/Props_Dts.v
theories/InvModel.v
theories/InvSpec.v
theories/InvProofs.v
theories/InvTrace.v
theories/InvTree.v
theories/InvDone.v
theories/Props_Inv.v
theories/InvExport.v
theories/XmlReadSpec.v
theories/XmlReadProofs.v
theories/InvExportSpec.v
theories/InvExportProofs.v
theories/InvExportTree.v
theories/InvExportDoc.v
theories/InvExportCopy.v
theories/InvExportBack.v
theories/Props_InvExport.v
theories/Props_InvCpt.v
theories/LoadModel.v
theories/LoadSpec.v
theories/LoadDict.v
theories/LoadTree.v
theories/LoadEnter.v
theories/LoadFold.v
theories/LoadBridge.v
theories/LoadCite.v
theories/LoadRead.v
theories/LoadAll.v
theories/LoadLeaf.v
theories/LoadMore.v
theories/Props_Load.v
theories/ServeModel.v
theories/ServeSpec.v
theories/ServeProofs.v
theories/Props_Serve.v
theories/TextMetaModel.v
theories/TextMetaSpec.v
theories/TextMetaProofs.v
theories/Props_TextMeta.v
theories/ApiModel.v
theories/ApiSpec.v
theories/Props_Api.v
theories/CiteTeiModel.v
theories/CiteTeiSpec.v
theories/Props_CiteTei.v
theories/DtsOutModel.v
theories/JsonLdSpec.v
theories/DtsOutSpec.v
theories/DtsOutProofs.v
theories/DtsOutMain.v
theories/Props_DtsOut.v
theories/DtsRefModel.v
theories/Props_DtsRef.v
theories/DtsDocModel.v
theories/DtsDocSpec.v
theories/DtsDocProofs.v
theories/Props_DtsDoc.v
theories/CopyModel.v
theories/CopySpec.v
theories/CopyProofs.v
theories/CopyFence.v
theories/CopyDone.v
theories/Props_Copy.v
theories/NavModel.v
theories/NavSpec.v
theories/NavProofs.v
theories/NavMemory.v
theories/Props_Nav.v
theories/FieldModel.v
theories/FieldSpec.v
theories/FieldProofs.v
theories/Props_Field.v
theories/InvsModel.v
theories/InvsSpec.v
theories/InvsProofs.v
theories/Props_Invs.v
theories/AnswerModel.v
theories/AnswerSpec.v
theories/AnswerProofs.v
theories/AnswerGraph.v
theories/Props_Answer.v
theories/SaidSpec.v
theories/SaidProofs.v
theories/SaidLoad.v
theories/Props_Said.v
theories/WalkModel.v
theories/WalkSpec.v
theories/WalkLists.v
theories/WalkWithin.v
theories/WalkProofs.v
theories/Props_Walk.v
theories/AuditModel.v
theories/AuditSpec.v
theories/AuditProofs.v
theories/Props_Audit.v
theories/InvPartModel.v
theories/InvPartSpec.v
theories/InvPart.v
theories/Props_InvPart.v
theories/CiteLifeModel.v
theories/CiteLifeSpec.v
theories/CiteLifeProofs.v
theories/CiteLifeMore.v
theories/Props_CiteLife.v
theories/DtsMetaModel.v
theories/DtsMetaSpec.v
theories/DtsMetaProofs.v
theories/DtsMetaMore.v
theories/Props_DtsMeta.v
theories/SessionModel.v
theories/SessionSpec.v
theories/SessionProofs.v
theories/Props_Session.v
theories/CrawlModel.v
theories/CrawlSpec.v
theories/CrawlProofs.v
theories/CrawlAsks.v
theories/Props_Crawl.v
theories/TextUrnModel.v
theories/TextUrnSpec.v
theories/TextUrnProofs.v
theories/Props_TextUrn.v
theories/Props_Mro.v
theories/DtsWriteModel.v
theories/DtsWriteSpec.v
theories/DtsWriteProofs.v
theories/Props_DtsWrite.v
