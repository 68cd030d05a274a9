-Q theories Verif
theories/Base.v
theories/Num.v
theories/OMap.v
theories/OMapSpec.v
theories/OMapProofs.v
theories/MapFacts.v
theories/Keys.v
theories/OMapJson.v
theories/Slice.v
theories/PropertiesMaps.v
theories/Yaml.v
theories/Values.v
theories/Assign.v
theories/Formats.v
theories/AssignProofs.v
theories/PropertiesAssign.v
theories/Meta.v
theories/Out.v
theories/Xml.v
theories/Example.v
theories/DataType.v
theories/Marshal.v
theories/TypeFacts.v
theories/Fields.v
theories/FieldProofs.v
theories/FacetSpec.v
theories/FacetProofs.v
theories/DocProofs.v
theories/TypeWrite.v
theories/PropertiesTypes.v
theories/OrderProofs.v
theories/PathProofs.v
theories/Lens.v
theories/Segs.v
theories/ExProofs.v
theories/InsertProofs.v
theories/Same.v
theories/ExRound.v
theories/PropertiesTypes2.v
theories/TypeSegs.v
theories/WriteSpec.v
theories/WriteProofs.v
theories/ReadInv.v
theories/PropertiesTypes3.v
theories/RoundSpec.v
theories/RoundProofs.v
theories/WasRead.v
theories/Writable.v
theories/Stable.v
theories/XmlProofs.v
theories/Lost.v
theories/Crash.v
theories/PropertiesTypes4.v
theories/Doc.v
theories/Api.v
theories/Library.v
theories/Parts.v
theories/ApiFields.v
theories/ApiSpec.v
theories/ApiProofs.v
theories/LibProofs.v
theories/ApiWrite.v
theories/ApiRoundSpec.v
theories/ApiRound.v
theories/LibRound.v
theories/ApiMore.v
theories/ApiOrder.v
theories/ApiReadRound.v
theories/PropertiesApi.v
theories/Writer.v
theories/WriterProofs.v
theories/PropertiesWrite.v
theories/Setters.v
theories/SetterSpec.v
theories/SetterProofs.v
theories/PropertiesSetters.v
theories/LibAll.v
theories/LibOrder.v
theories/LibReadRound.v
theories/PropertiesLib.v
theories/Heap.v
theories/HeapSpec.v
theories/HeapProofs.v
theories/HeapEdit.v
theories/HeapLoop.v
theories/HeapMap.v
theories/HeapSet.v
theories/HeapWhole.v
theories/PropertiesHeap.v
theories/EditSpec.v
theories/EditSave.v
theories/PropertiesEdit.v
theories/Live.v
theories/LiveSpec.v
theories/LiveProofs.v
theories/LiveMap.v
theories/PropertiesLive.v
theories/IdemSpec.v
theories/Idem.v
theories/ApiIdem.v
theories/PropertiesIdem.v
theories/Exact.v
theories/ApiExact.v
theories/PropertiesExact.v
theories/GrammarSpec.v
theories/Grammar.v
theories/PropertiesGrammar.v
theories/Conc.v
theories/ConcSpec.v
theories/ConcProofs.v
theories/PropertiesConc.v
theories/Into.v
theories/IntoSpec.v
theories/IntoProofs.v
theories/PropertiesInto.v
theories/LiveSaveSpec.v
theories/LiveSave.v
theories/PropertiesLiveSave.v
theories/Deep.v
theories/DeepProofs.v
theories/DeepMore.v
theories/PropertiesDeep.v
theories/Faithful.v
theories/PropertiesFaithful.v
theories/BuildSpec.v
theories/Build.v
theories/PropertiesBuild.v
theories/Objects.v
theories/ObjProofs.v
theories/ObjHeap.v
theories/ObjPrograms.v
theories/ObjLoad.v
theories/PropertiesObjects.v
theories/Places.v
theories/PlaceProofs.v
theories/PropertiesPlaces.v
theories/Changes.v
theories/ChangeProofs.v
theories/PropertiesChanges.v
theories/Independent.v
theories/IndependentProofs.v
theories/PropertiesIndependent.v
theories/Sharing.v
theories/SharingProofs.v
theories/PropertiesSharing.v
theories/Sizes.v
theories/SizeProofs.v
theories/PropertiesSizes.v
theories/Settle.v
theories/SettleProofs.v
theories/SettleDocs.v
theories/PropertiesSettle.v
theories/Cuts.v
theories/CutProofs.v
theories/TrimProofs.v
theories/PropertiesCuts.v
theories/RepoTests.v
theories/Program.v
theories/PropertiesTests.v
theories/MapExact.v
theories/PropertiesMapsExact.v
theories/JsonValues.v
theories/PropertiesJson.v
theories/Looks.v
theories/PropertiesLooks.v
theories/NilEntries.v
theories/PropertiesNil.v
theories/Override.v
theories/PropertiesOverride.v
theories/Cost.v
theories/CostProofs.v
theories/CostFlat.v
theories/CostHigh.v
theories/PropertiesCost.v
theories/WriteExact.v
theories/PropertiesWriteExact.v
theories/SaveCost.v
theories/SaveCostProofs.v
theories/SaveCostHigh.v
theories/PropertiesSaveCost.v
theories/AliasSpec.v
theories/AliasProofs.v
theories/PropertiesAlias.v
theories/Lists.v
theories/ListSpec.v
theories/ListProofs.v
theories/PropertiesLists.v
theories/Reader.v
theories/ReaderSpec.v
theories/PropertiesReader.v
theories/Several.v
theories/SeveralSpec.v
theories/PropertiesSeveral.v
theories/CommonSpec.v
theories/PropertiesCommon.v
theories/TypesCommonSpec.v
theories/PropertiesTypesCommon.v
theories/RenameSpec.v
theories/PropertiesRename.v
theories/PropertiesTwice.v
theories/PropertiesRenameTypes.v
theories/RenameTopSpec.v
theories/PropertiesRenameTop.v
theories/RenameFreeSpec.v
theories/PropertiesRenameFree.v
theories/PropertiesRenameMarks.v
theories/RenameUnknownSpec.v
theories/PropertiesRenameUnknown.v
