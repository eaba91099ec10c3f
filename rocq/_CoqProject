-Q theories Verif
theories/PyBase.v
theories/StarBlockModel.v
theories/PyFacts.v
theories/StarBlockSpec.v
theories/StarBlockProofs.v
theories/StarBlockProofs2.v
theories/StarBlockProofs3.v
theories/StarBlockProofs4.v
theories/StarBlockProofs5.v
theories/StarBlockProofs6.v
theories/PropertiesBlock.v
theories/RegexModel.v
theories/RegexFacts.v
theories/FoldModel.v
theories/FoldSpec.v
theories/FoldProofs.v
theories/FoldProofs2.v
theories/FoldProofs3.v
theories/PropertiesFold.v
theories/LoopModel.v
theories/LoopSpec.v
theories/LoopProofs.v
theories/LoopProofs2.v
theories/LoopProofs3.v
theories/PropertiesLoop.v
theories/ReadModel.v
theories/ReadSpec.v
theories/ReadProofs.v
theories/ReadProofs2.v
theories/PropertiesRead.v
theories/ScanModel.v
theories/FormatModel.v
theories/WriteModel.v
theories/ParseModel.v
theories/ScanFacts.v
theories/ScanSpec.v
theories/ScanProofs.v
theories/ScanProofs2.v
theories/ScanProofs3.v
theories/TextProofs.v
theories/TextProofs2.v
theories/FormatSpec.v
theories/FormatProofs.v
theories/FormatProofs2.v
theories/FormatProofs3.v
theories/FormatProofs4.v
theories/ScanProofs4.v
theories/PropertiesScan.v
theories/PropertiesFormat.v
theories/WriteSpec.v
theories/WriteProofs.v
theories/WriteProofs2.v
theories/WriteProofs3.v
theories/WriteProofs4.v
theories/ParseSpec.v
theories/ParseProofs.v
theories/ParseProofs2.v
theories/ParseProofs3.v
theories/ParseProofs4.v
theories/ParseProofs5.v
theories/ParseProofs6.v
theories/PropertiesWrite.v
theories/CollectionModel.v
theories/CollectionSpec.v
theories/CollectionProofs.v
theories/CollectionProofs2.v
theories/CollectionProofs3.v
theories/CollectionProofs4.v
theories/PropertiesCollection.v
theories/FileModel.v
theories/FileSpec.v
theories/FileProofs.v
theories/FileProofs2.v
theories/FileProofs3.v
theories/PropertiesFile.v
theories/OrderModel.v
theories/OrderSpec.v
theories/OrderProofs.v
theories/OrderProofs2.v
theories/PropertiesOrder.v
theories/MergeModel.v
theories/MergeSpec.v
theories/MergeProofs.v
theories/PropertiesMerge.v
theories/NumberModel.v
theories/NumberSpec.v
theories/NumberProofs.v
theories/NumberProofs2.v
theories/NumberProofs3.v
theories/PropertiesNumber.v
theories/RegexSpec.v
theories/RegexProofs.v
theories/ValidateModel.v
theories/ValidateSpec.v
theories/ValidateProofs.v
theories/ValidateProofs2.v
theories/ValidateProofs3.v
theories/ValidateProofs4.v
theories/PropertiesValidate.v
theories/RecursionModel.v
theories/RecursionSpec.v
theories/RecursionProofs.v
theories/PropertiesRecursion.v
theories/TreeModel.v
theories/TreeSpec.v
theories/TreeProofs.v
theories/TreeProofs2.v
theories/PropertiesTree.v
theories/ImportModel.v
theories/ImportSpec.v
theories/ImportProofs.v
theories/ImportProofs2.v
theories/PropertiesImport.v
theories/TypeModel.v
theories/TypeSpec.v
theories/TypeProofs.v
theories/PropertiesType.v
theories/BlockCheckModel.v
theories/BlockCheckSpec.v
theories/BlockCheckProofs.v
theories/PropertiesBlockCheck.v
theories/KeyModel.v
theories/KeySpec.v
theories/KeyProofs.v
theories/KeyProofs2.v
theories/KeyProofs3.v
theories/PropertiesKey.v
theories/ValidBlockModel.v
theories/ValidBlockSpec.v
theories/ValidBlockProofs.v
theories/PropertiesValidBlock.v
theories/CollMergeModel.v
theories/CollMergeSpec.v
theories/CollMergeProofs.v
theories/PropertiesCollMerge.v
theories/EditModel.v
theories/EditSpec.v
theories/EditProofs.v
theories/EditProofs2.v
theories/EditProofs3.v
theories/EditProofs4.v
theories/EditProofs5.v
theories/PropertiesEdit.v
theories/DrelModel.v
theories/DrelSpec.v
theories/DrelProofs.v
theories/DrelProofs2.v
theories/DrelProofs3.v
theories/DrelProofs4.v
theories/DrelProofs5.v
theories/DrelProofs6.v
theories/PropertiesDrel.v
theories/LayoutSpec.v
theories/LayoutProofs.v
theories/LayoutProofs2.v
theories/LayoutProofs3.v
theories/LayoutProofs4.v
theories/PropertiesLayout.v
theories/DeriveModel.v
theories/DeriveSpec.v
theories/DeriveProofs.v
theories/DeriveProofs2.v
theories/DeriveProofs3.v
theories/DeriveProofs4.v
theories/DeriveProofs5.v
theories/DeriveProofs6.v
theories/DeriveSpec2.v
theories/PullbackSpec.v
theories/PullbackProofs.v
theories/DeriveProofs7.v
theories/PropertiesDerive.v
theories/PullbackProofs2.v
theories/PullbackProofs3.v
theories/PropertiesPullback.v
theories/DdlModel.v
theories/DdlSpec.v
theories/DdlProofs.v
theories/DdlProofs2.v
theories/DdlProofs3.v
theories/DdlProofs4.v
theories/DdlProofs5.v
theories/PropertiesDdl.v
theories/FlexModel.v
theories/FlexSpec.v
theories/FlexProofs.v
theories/FlexProofs2.v
theories/FlexProofs3.v
theories/FlexProofs4.v
theories/FlexProofs5.v
theories/FlexProofs6.v
theories/FlexProofs7.v
theories/FlexProofs8.v
theories/FlexProofs9.v
theories/FlexProofs10.v
theories/FlexProofs11.v
theories/PropertiesFlex.v
theories/GrammarSpec.v
theories/GrammarProofs.v
theories/GrammarProofs2.v
theories/GrammarProofs3.v
theories/GrammarProofs4.v
theories/PropertiesGrammar.v
theories/ReportModel.v
theories/ReportSpec.v
theories/ReportProofs.v
theories/ReportProofs2.v
theories/PropertiesReport.v
theories/LexModel.v
theories/LexSpec.v
theories/LexProofs.v
theories/LexProofs2.v
theories/LexProofs3.v
theories/LexProofs4.v
theories/LexProofs5.v
theories/LexProofs6.v
theories/PropertiesLex.v
theories/RuntimeModel.v
theories/RuntimeSpec.v
theories/RuntimeProofs.v
theories/RuntimeProofs2.v
theories/PropertiesRuntime.v
theories/DicMergeModel.v
theories/DicMergeSpec.v
theories/DicMergeProofs.v
theories/PropertiesDicMerge.v
theories/TypeInfoModel.v
theories/TypeInfoSpec.v
theories/TypeInfoProofs.v
theories/TypeInfoProofs2.v
theories/TypeInfoProofs3.v
theories/TypeInfoProofs4.v
theories/PropertiesTypeInfo.v
theories/HeaderModel.v
theories/HeaderSpec.v
theories/HeaderProofs.v
theories/PropertiesHeader.v
theories/OutlineModel.v
theories/OutlineSpec.v
theories/OutlineProofs.v
theories/OutlineProofs2.v
theories/PropertiesOutline.v
theories/WholeSpec.v
theories/WholeProofs.v
theories/WholeProofs2.v
theories/WholeProofs3.v
theories/WholeProofs4.v
theories/WholeProofs5.v
theories/WholeProofs6.v
theories/WholeProofs7.v
theories/PropertiesWhole.v
theories/HandSpec.v
theories/HandProofs.v
theories/HandProofs2.v
theories/PropertiesHand.v
theories/ConvertSpec.v
theories/ConvertProofs.v
theories/PropertiesConvert.v
theories/ValidFileModel.v
theories/ValidFileSpec.v
theories/ValidFileProofs.v
theories/ValidFileProofs2.v
theories/PropertiesValidFile.v
theories/GivenModel.v
theories/GivenSpec.v
theories/GivenProofs.v
theories/GivenProofs2.v
theories/PropertiesGiven.v
theories/FrameCheckModel.v
theories/FrameCheckSpec.v
theories/FrameCheckProofs.v
theories/PropertiesFrameCheck.v
theories/PhraseModel.v
theories/PhraseSpec.v
theories/PhraseProofs.v
theories/PhraseProofs2.v
theories/PhraseProofs3.v
theories/PhraseProofs4.v
theories/PhraseProofs5.v
theories/PhraseProofs6.v
theories/PropertiesPhrase.v
theories/SentenceModel.v
theories/SentenceSpec.v
theories/SentenceProofs.v
theories/SentenceProofs2.v
theories/SentenceProofs3.v
theories/PropertiesSentence.v
theories/TransformModel.v
theories/TransformSpec.v
theories/TransformProofs.v
theories/TransformProofs2.v
theories/TransformProofs3.v
theories/PropertiesTransform.v
theories/ObtainModel.v
theories/ObtainSpec.v
theories/ObtainProofs.v
theories/ObtainProofs2.v
theories/PropertiesObtain.v
theories/AdoptModel.v
theories/AdoptSpec.v
theories/AdoptProofs.v
theories/AdoptProofs2.v
theories/PropertiesAdopt.v
theories/VerdictModel.v
theories/VerdictSpec.v
theories/VerdictProofs.v
theories/PropertiesVerdict.v
theories/ScopeModel.v
theories/ScopeSpec.v
theories/ScopeProofs.v
theories/PropertiesScope.v
theories/SemanticModel.v
theories/SemanticSpec.v
theories/SemanticProofs.v
theories/SemanticProofs2.v
theories/PropertiesSemantic.v
theories/SurveyModel.v
theories/SurveySpec.v
theories/SurveyProofs.v
theories/PropertiesSurvey.v
theories/PointerModel.v
theories/PointerSpec.v
theories/PointerProofs.v
theories/PropertiesPointer.v
theories/BufferModel.v
theories/BufferSpec.v
theories/BufferProofs.v
theories/PropertiesBuffer.v
theories/AttrModel.v
theories/AttrSpec.v
theories/AttrProofs.v
theories/PropertiesAttr.v
theories/LengthModel.v
theories/LengthSpec.v
theories/LengthProofs.v
theories/PropertiesLength.v
theories/UpdateModel.v
theories/UpdateSpec.v
theories/UpdateProofs.v
theories/PropertiesUpdate.v
theories/RemovalModel.v
theories/RemovalSpec.v
theories/RemovalProofs.v
theories/PropertiesRemoval.v
