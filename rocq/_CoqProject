-Q theories Verif

theories/AffineProofs.v
theories/AttrRead.v
theories/AttrText.v
theories/Bends.v
theories/Bezier.v
theories/BezierProofs.v
theories/BinPack.v
theories/BinPackFloat.v
theories/BinPackGeom.v
theories/BinPackPad.v
theories/BinPackPadFloat.v
theories/BinPackProofs.v
theories/CleanupProofs.v
theories/CommandLine.v
theories/Comments.v
theories/CompProofs.v
theories/Components.v
theories/DedupProofs.v
theories/Deliver.v
theories/Docs.v
theories/DocsProofs.v
theories/DrawComp.v
theories/DrawModel.v
theories/DynAsk.v
theories/DynCheck.v
theories/DynModel.v
theories/DynProofs.v
theories/DynRead.v
theories/ExprFuncs.v
theories/Factories.v
theories/Files.v
theories/FlattenProofs.v
theories/FloatGeom.v
theories/FloatNum.v
theories/GeomProofs.v
theories/GeomSpec.v
theories/GeomTransforms.v
theories/HandleProofs.v
theories/IeeeArith.v
theories/IeeeProofs.v
theories/JoinChain.v
theories/JoinProofs.v
theories/JoinProofs2.v
theories/Json.v
theories/JsonProofs.v
theories/KnifeProofs.v
theories/LineGeom.v
theories/LogFields.v
theories/LogModel.v
theories/LoopCurve.v
theories/MergeProofs.v
theories/Num.v
theories/NumLaws.v
theories/OffsetModel.v
theories/Output.v
theories/ParamModel.v
theories/PartSplit.v
theories/PartSplitProofs.v
theories/PathModel.v
theories/PathProofs.v
theories/PathSpec.v
theories/PlanSet.v
theories/PlanSetProofs.v
theories/PrecisionProofs.v
theories/Prop_C01.v
theories/Prop_C01b.v
theories/Prop_C02.v
theories/Prop_C03.v
theories/Prop_C04.v
theories/Prop_C05.v
theories/Prop_C06.v
theories/Prop_C07.v
theories/Prop_C08.v
theories/Prop_C09.v
theories/Prop_C10.v
theories/Prop_C100.v
theories/Prop_C101.v
theories/Prop_C101b.v
theories/Prop_C11.v
theories/Prop_C12.v
theories/Prop_C13.v
theories/Prop_C14.v
theories/Prop_C14b.v
theories/Prop_C15.v
theories/Prop_C15b.v
theories/Prop_C16.v
theories/Prop_C16b.v
theories/Prop_C17.v
theories/Prop_C17b.v
theories/Prop_C18.v
theories/Prop_C19.v
theories/Prop_C19b.v
theories/Prop_C20.v
theories/Prop_C20b.v
theories/Prop_C21.v
theories/Prop_C22.v
theories/Prop_C23.v
theories/Prop_C24.v
theories/Prop_C24b.v
theories/Prop_C25.v
theories/Prop_C26.v
theories/Prop_C26b.v
theories/Prop_C27.v
theories/Prop_C27b.v
theories/Prop_C27c.v
theories/Prop_C28.v
theories/Prop_C29.v
theories/Prop_C30.v
theories/Prop_C31.v
theories/Prop_C31b.v
theories/Prop_C32.v
theories/Prop_C32b.v
theories/Prop_C33.v
theories/Prop_C34.v
theories/Prop_C35.v
theories/Prop_C35b.v
theories/Prop_C36.v
theories/Prop_C37.v
theories/Prop_C38.v
theories/Prop_C39.v
theories/Prop_C40.v
theories/Prop_C41.v
theories/Prop_C42.v
theories/Prop_C43.v
theories/Prop_C44.v
theories/Prop_C45.v
theories/Prop_C46.v
theories/Prop_C47.v
theories/Prop_C48.v
theories/Prop_C49.v
theories/Prop_C50.v
theories/Prop_C51.v
theories/Prop_C52.v
theories/Prop_C53.v
theories/Prop_C54.v
theories/Prop_C55.v
theories/Prop_C56.v
theories/Prop_C57.v
theories/Prop_C58.v
theories/Prop_C59.v
theories/Prop_C60.v
theories/Prop_C61.v
theories/Prop_C62.v
theories/Prop_C63.v
theories/Prop_C64.v
theories/Prop_C65.v
theories/Prop_C66.v
theories/Prop_C67.v
theories/Prop_C68.v
theories/Prop_C69.v
theories/Prop_C69b.v
theories/Prop_C70.v
theories/Prop_C71.v
theories/Prop_C72.v
theories/Prop_C72b.v
theories/Prop_C73.v
theories/Prop_C74.v
theories/Prop_C75.v
theories/Prop_C76.v
theories/Prop_C76b.v
theories/Prop_C77.v
theories/Prop_C78.v
theories/Prop_C78b.v
theories/Prop_C79.v
theories/Prop_C80.v
theories/Prop_C81.v
theories/Prop_C82.v
theories/Prop_C83.v
theories/Prop_C84.v
theories/Prop_C85.v
theories/Prop_C86.v
theories/Prop_C86b.v
theories/Prop_C86c.v
theories/Prop_C86d.v
theories/Prop_C87.v
theories/Prop_C88.v
theories/Prop_C89.v
theories/Prop_C89b.v
theories/Prop_C90.v
theories/Prop_C91.v
theories/Prop_C91b.v
theories/Prop_C92.v
theories/Prop_C93.v
theories/Prop_C94.v
theories/Prop_C94b.v
theories/Prop_C95.v
theories/Prop_C96.v
theories/Prop_C96_read.v
theories/Prop_C97.v
theories/Prop_C98.v
theories/Prop_C99.v
theories/RealNum.v
theories/RealTrig.v
theories/ReduceCuts.v
theories/ReduceProofs.v
theories/Registry.v
theories/RelError.v
theories/RenderDoc.v
theories/ReorderProofs.v
theories/Request.v
theories/RootsProofs.v
theories/RotateProofs.v
theories/SegOps.v
theories/SelfModel.v
theories/SliceProofs.v
theories/SplitProofs.v
theories/SvgDecode.v
theories/SvgElement.v
theories/SvgParse.v
theories/SvgProofs.v
theories/SvgProofs2.v
theories/SvgText.v
theories/SvgWrite.v
theories/TestMath.v
theories/TestsDesigns.v
theories/TestsDesigns2.v
theories/TestsDesigns3.v
theories/TestsDesigns4.v
theories/TestsDesigns5.v
theories/TestsDesignsConnect.v
theories/TestsDesignsIntercept.v
theories/TestsDesignsPawn.v
theories/TestsDesignsSplit.v
theories/TestsMaps.v
theories/TestsPaths.v
theories/TestsSvg.v
theories/TestsTransforms.v
theories/TextProofs.v
theories/TransformsModel.v
theories/UnitsModel.v
theories/Url.v
theories/UtilProofs.v
theories/Vars.v
theories/Within.v
theories/Witness.v
theories/XmlSpec.v
