-Q theories Verif
theories/Base.v
theories/ListFacts.v
theories/Units.v
theories/TimeModel.v
theories/Core.v
theories/CoreEvo.v
theories/CoreTree.v
theories/CoreNames.v
theories/CoreInv.v
theories/CoreStep.v
theories/Spec_Core.v
theories/CoreReq.v
theories/CoreP1.v
theories/CoreP2.v
theories/CoreLeaves.v
theories/CoreP3.v
theories/CoreP4.v
theories/CoreView.v
theories/CoreErase.v
theories/Spec_View.v
theories/CoreP5.v
theories/CoreP6.v
theories/CoreP8.v
theories/Examples.v
theories/Prop_Core1.v
theories/Prop_Core2.v
theories/Calendar.v
theories/CalendarFacts.v
theories/TimeFacts.v
theories/TimeLin.v
theories/TimeConv.v
theories/TimeConv2.v
theories/TimeConv3.v
theories/Spec_Time.v
theories/TimeProps.v
theories/CoreP7.v
theories/Prop_Core3.v
theories/Spec_Totals.v
theories/TimeTotals.v
theories/CoreTotals.v
theories/Prop_Totals.v
theories/Spec_Relabel.v
theories/RelabelNum.v
theories/RelabelSim.v
theories/RelabelProps.v
theories/Prop_Relabel.v
theories/Spec_DiceUnits.v
theories/DiceUnits.v
theories/Prop_DiceUnits.v
theories/Spec_DiceMono.v
theories/DiceMono.v
theories/DiceWarmEx.v
theories/Prop_DiceMono.v
theories/Spec_DiceWarm.v
theories/DiceWarm.v
theories/Prop_DiceWarm.v
theories/Spec_DiceRest.v
theories/DiceRest.v
theories/DiceRestEx.v
theories/Prop_DiceRest.v
theories/Spec_Apart.v
theories/Apart.v
theories/Silent.v
theories/Prop_Apart.v
theories/Prop_Time.v
theories/Spec_Exact.v
theories/ExactProps.v
theories/Prop_Exact.v
theories/Tests_Time.v
theories/Gases.v
theories/GasesFacts.v
theories/Spec_Units.v
theories/UnitsProps.v
theories/GasTable.v
theories/GasAny.v
theories/MetricTable.v
theories/MetricProps.v
theories/Prop_Units.v
theories/Adapters.v
theories/Dice.v
theories/Spec_Adapters.v
theories/AdapterProps.v
theories/DiceInit.v
theories/DiceEx.v
theories/Prop_Adapters.v
theories/ConvShape.v
theories/DiceSim.v
theories/DiceBase.v
theories/DiceMachine.v
theories/Spec_Dice.v
theories/DiceUsed.v
theories/DiceProgress.v
theories/DiceTime.v
theories/DiceProps.v
theories/DiceAgain.v
theories/CoreAgain.v
theories/DiceRepeat.v
theories/DiceRunEx.v
theories/DiceLateEx.v
theories/Prop_Dice.v
theories/Memory.v
theories/Spec_Memory.v
theories/MemoryProps.v
theories/MemoryKept.v
theories/MemoryEx.v
theories/Prop_Memory.v
theories/MemoryStore.v
theories/Spec_MemoryStore.v
theories/MemoryRefine.v
theories/MemoryStoreProps.v
theories/MemoryStoreEx.v
theories/Prop_MemoryStore.v
theories/Regex.v
theories/Filters.v
theories/Spec_Filters.v
theories/FiltersProps.v
theories/FiltersTimes.v
theories/ParameterType.v
theories/Spec_Guess.v
theories/GuessProps.v
theories/Prop_Filters.v
theories/Civil.v
theories/CivilFacts.v
theories/Offsets.v
theories/OffsetsFacts.v
theories/Spec_Offsets.v
theories/OffsetsProps.v
theories/Prop_Offsets.v
theories/Frame.v
theories/Spec_Frame.v
theories/FrameFilter.v
theories/FrameSelect.v
theories/Prop_Frame.v
theories/FrameEdit.v
theories/Prop_FrameEdit.v
theories/FrameAppend.v
theories/Spec_Append.v
theories/AppendProps.v
theories/Prop_Append.v
theories/FrameInterp.v
theories/Spec_Interp.v
theories/InterpProps.v
theories/Prop_Interp.v
theories/FrameWide.v
theories/Spec_Wide.v
theories/WideProps.v
theories/RefProps.v
theories/Prop_Wide.v
theories/FrameFormat.v
theories/FrameItems.v
theories/FormatProps.v
theories/Spec_Format.v
theories/LongProps.v
theories/AlignProps.v
theories/Prop_Format.v
theories/Spec_Items.v
theories/ItemsProps.v
theories/Prop_Items.v
theories/Spec_Names.v
theories/NamesProps.v
theories/Prop_Names.v
theories/FrameStore.v
theories/Spec_Store.v
theories/StoreHolds.v
theories/StoreCalls.v
theories/StoreWalk.v
theories/StoreBack.v
theories/StorePut.v
theories/StoreProps.v
theories/StoreNever.v
theories/Prop_Store.v
theories/TimeInput.v
theories/Spec_TimeInput.v
theories/TimeInputProps.v
theories/Prop_TimeInput.v
theories/Handles.v
theories/Versions.v
theories/Spec_Handles.v
theories/HandlesSlices.v
theories/HandlesProps.v
theories/Prop_Handles.v
theories/Spec_Pipeline.v
theories/PipelineFrame.v
theories/PipelineDice.v
theories/Pipeline.v
theories/PipelineEx.v
theories/Prop_Pipeline.v
theories/PipelineKept.v
theories/PipelineRead.v
theories/PipelineOut.v
theories/PipelineBack.v
theories/PipelineEx2.v
theories/Prop_PipelineBack.v
theories/PipelineCarbon.v
theories/PipelineEx3.v
theories/Prop_PipelineCarbon.v
theories/Spec_Share.v
theories/ShareSim.v
theories/ShareReq.v
theories/Share.v
theories/Prop_Share.v
theories/SplitProps.v
theories/Prop_Split.v
theories/Spec_Convert.v
theories/ConvertProps.v
theories/Prop_Convert.v
theories/RegridProps.v
theories/Prop_Regrid.v
theories/Tests_Frame.v
theories/Tests_Units.v
theories/Tests_Core.v
theories/Tests_Misc.v
theories/Spec_Resample.v
theories/ResampleProps.v
theories/Prop_Resample.v
theories/Spec_Rescale.v
theories/RescaleProps.v
theories/Prop_Rescale.v
theories/Spec_Stat.v
theories/StatProps.v
theories/Prop_Stat.v
theories/Spec_Combined.v
theories/CombinedProps.v
theories/Prop_Combined.v
theories/InterpGiven.v
theories/Prop_Given.v
theories/Spec_Shift.v
theories/ShiftProps.v
theories/Prop_Shift.v
theories/Spec_Order.v
theories/OrderProps.v
theories/Prop_Order.v
theories/Spec_Rules.v
theories/RulesProps.v
theories/Prop_Rules.v
theories/AgainProps.v
theories/Prop_Again.v
theories/Spec_Regex.v
theories/RegexProps.v
theories/RegexFilter.v
theories/Prop_Regex.v
