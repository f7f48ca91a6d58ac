-Q theories Verif
theories/Prelude.v
theories/DataTables.v
theories/UcdTables.v
theories/Utf8Model.v
theories/PropsModel.v
theories/TextModel.v
theories/ExamplesModel.v
theories/Utf8Spec.v
theories/Utf8Proofs.v
theories/LawfulProofs.v
theories/IterProofs.v
theories/SequenceProofs.v
theories/ByteProofs.v
theories/BoundsProofs.v
theories/ExactProofs.v
theories/Properties_Iteration.v
theories/Properties_Bounds.v
theories/EncodeProofs.v
theories/AppendProofs.v
theories/EncodeText.v
theories/EncodeMore.v
theories/Properties_Encode.v
theories/UnicodeSpec.v
theories/PropsProofs.v
theories/DecompTables.v
theories/DecompProofs.v
theories/Properties_Props.v
theories/GraphemeProofs.v
theories/GraphemeSpec.v
theories/Uax29Proofs.v
theories/TextSpec.v
theories/GraphemeText.v
theories/Properties_Graphemes.v
theories/NormSpec.v
theories/OrderProofs.v
theories/ComposeProofs.v
theories/FilterSpec.v
theories/FilterProofs.v
theories/NormData.v
theories/HangulProofs.v
theories/NormProofs.v
theories/NfcProofs.v
theories/NormForms.v
theories/NormUtf8.v
theories/NormText.v
theories/Properties_Normalize.v
theories/StdSortModel.v
theories/StdSortProofs.v
theories/Properties_Sort.v
theories/RepoTests.v
theories/TextsProofs.v
theories/Properties_Texts.v
theories/FormsProofs.v
theories/Properties_Forms.v
theories/EquivProofs.v
theories/Properties_Equivalence.v
theories/GraphemeBytes.v
theories/Properties_Bytes.v
theories/RangeSpec.v
theories/RangeProofs.v
theories/MemSpec.v
theories/MemProofs.v
theories/MemLoops.v
theories/ViewBounds.v
theories/Properties_Ranges.v
theories/ReadBack.v
theories/MemViews.v
theories/Properties_Memory.v
theories/ReadBackMore.v
theories/Properties_ReadBack.v
theories/SubRange.v
theories/Properties_Parts.v
theories/GenModel.v
theories/GenSpec.v
theories/GenText.v
theories/GenProofs.v
theories/GenComp.v
theories/GenBreak.v
theories/GenBare.v
theories/GenShipped.v
theories/Properties_Generators.v
theories/CxxSpec.v
theories/GenHeaderModel.v
theories/GenHeaderProofs.v
theories/Properties_Headers.v
theories/AlgoModel.v
theories/AlgoSpec.v
theories/AlgoProofs.v
theories/UtfOrder.v
theories/OctetGraphemes.v
theories/Properties_Octets.v
theories/ExamplesSpec.v
theories/ExamplesProofs.v
theories/Properties_Examples.v
theories/Properties_Algorithms.v
theories/ReverseModel.v
theories/ReverseProofs.v
theories/Properties_Reverse.v
theories/HistorySpec.v
theories/HistoryModel.v
theories/HistoryProofs.v
theories/StringHistorySpec.v
theories/StringHistoryModel.v
theories/StringHistoryProofs.v
theories/Properties_Histories.v
theories/LocalMarks.v
theories/Properties_Local.v
theories/ScheduleSpec.v
theories/ScheduleModel.v
theories/ScheduleProofs.v
theories/Properties_Schedules.v
theories/SingleMarks.v
theories/Properties_Everyday.v
theories/RangeTree.v
theories/KeepGraphemes.v
theories/EquivGraphemes.v
theories/Properties_Keep.v
theories/AllocModel.v
theories/AllocProofs.v
theories/Properties_Alloc.v
theories/CostModel.v
theories/CostProofs.v
theories/Properties_Cost.v
theories/Properties_Pipeline.v
theories/Properties_BoundsRange.v
theories/Properties_PlainGraphemes.v
theories/OctetCostModel.v
theories/OctetCostProofs.v
theories/Properties_OctetCost.v
theories/SortCostModel.v
theories/SortCostProofs.v
theories/WorkModel.v
theories/WorkProofs.v
theories/Properties_Work.v
theories/CharModel.v
theories/CharProofs.v
theories/Properties_Char.v
theories/LibcModel.v
theories/Properties_Libc.v
theories/LinesSpec.v
theories/LinesProofs.v
theories/Properties_Lines.v
theories/StreamModel.v
theories/StreamProofs.v
theories/Properties_Stream.v
theories/Properties_Search.v
theories/Properties_Fields.v
theories/Properties_Fields8.v
theories/Properties_Octets8.v
theories/Algo2Model.v
theories/Algo2Spec.v
theories/Algo2Proofs.v
theories/Properties_Algorithms2.v
theories/NativeModel.v
theories/NativeProofs.v
theories/Properties_Native.v
theories/EditModel.v
theories/Properties_Edit.v
theories/NativeModel2.v
theories/Properties_Native2.v
theories/Properties_Split.v
