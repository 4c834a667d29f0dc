-Q theories Verif
theories/Float.v
theories/RngModel.v
theories/RngLemmas.v
theories/RngIeee.v
theories/RngSpec.v
theories/RngFacts.v
theories/RngProps.v
theories/Balance.v
theories/ParticleModel.v
theories/NuclearModel.v
theories/MeshTypes.v
theories/TrackModel.v
theories/CycleModel.v
theories/ProgLemmas.v
theories/TrackSpec.v
theories/CycleSpec.v
theories/TrackAccount.v
theories/CycleAccount.v
theories/ReportModel.v
theories/Ieee.v
theories/GridModel.v
theories/AssignModel.v
theories/MeshModel.v
theories/SeqRun.v
theories/Demo.v
theories/DemoRun.v
theories/CycleFacts.v
theories/ScheduleSpec.v
theories/ScheduleLemmas.v
theories/ScheduleFacts.v
theories/RangeSpec.v
theories/RangeFacts.v
theories/RunAgree.v
theories/RealOps.v
theories/IeeeEnergy.v
theories/ParRun.v
theories/ScheduleRun.v
theories/DemoSound.v
theories/ScheduleProps.v
theories/CycleProps.v
theories/GridSpec.v
theories/GridLemmas.v
theories/AssignLemmas.v
theories/FloodLemmas.v
theories/MeshFacts.v
theories/MeshSpec.v
theories/MeshTheorems.v
theories/MaterialFacts.v
theories/DecompModel.v
theories/DecompLemmas.v
theories/MeshProps.v
theories/PopSpec.v
theories/SortLemmas.v
theories/SourceLemmas.v
theories/PopLemmas.v
theories/SourceCount.v
theories/PopDemo.v
theories/PopProps.v
theories/SegmentSpec.v
theories/NearestLemmas.v
theories/FacetLemmas.v
theories/RunKeeps.v
theories/SegmentFacts.v
theories/CrossingLemmas.v
theories/SegmentDefined.v
theories/SegmentDemo.v
theories/ClockIeee.v
theories/SegmentProps.v
theories/NuclearSpec.v
theories/NuclearFacts.v
theories/NuclearReal.v
theories/NuclearIeee.v
theories/PartnerLemmas.v
theories/OutcomeLemmas.v
theories/NuclearDemo.v
theories/SecondarySpec.v
theories/SecondaryLemmas.v
theories/NuclearProps.v
theories/GeomSpec.v
theories/GeomLemmas.v
theories/PlaneLemmas.v
theories/SourcePoint.v
theories/NearestCenter.v
theories/InitReal.v
theories/WellBuilt.v
theories/GeomDemo.v
theories/SearchDefined.v
theories/GeomProps.v
theories/TimerModel.v
theories/TimerSpec.v
theories/TimerLemmas.v
theories/TimerRun.v
theories/TimerDefined.v
theories/TimerReport.v
theories/TimerProps.v
theories/CsvModel.v
theories/CsvSpec.v
theories/CsvLemmas.v
theories/CsvFacts.v
theories/CsvDemo.v
theories/StatModel.v
theories/StatSpec.v
theories/StatReal.v
theories/StatFacts.v
theories/StatDemo.v
theories/StatProps.v
theories/ParamModel.v
theories/ParamSpec.v
theories/SetUpSpec.v
theories/BlockLemmas.v
theories/ParamLemmas.v
theories/IntegrityLemmas.v
theories/SetUpReal.v
theories/ParamDemo.v
theories/ParamProps.v
theories/SafeSpec.v
theories/SafeLemmas.v
theories/SafeRun.v
theories/SafeBuilt.v
theories/SafeReal.v
theories/SafeIeee.v
theories/SafeDemo.v
theories/SafeAll.v
theories/SafeProps.v
theories/StaySpec.v
theories/StayLemmas.v
theories/StaySteps.v
theories/StayRun.v
theories/StayDemo.v
theories/QuietRun.v
theories/QuietSteps.v
theories/QuietTrack.v
theories/StayProps.v
theories/XsTableModel.v
theories/XsTableSpec.v
theories/XsTableFacts.v
theories/XsTableReal.v
theories/XsTableText.v
theories/XsTableProps.v
theories/SpectrumModel.v
theories/SpectrumSpec.v
theories/SpectrumFacts.v
theories/SpectrumDemo.v
theories/SpectrumProps.v
theories/LawSpec.v
theories/LawCount.v
theories/LawFacts.v
theories/LawAngle.v
theories/LawProps.v
theories/SpeedSpec.v
theories/SpeedFacts.v
theories/SpeedProps.v
theories/LifeSpec.v
theories/LifeRun.v
theories/LifeDemo.v
theories/LifeProps.v
theories/WeightSpec.v
theories/WeightFacts.v
theories/WeightRun.v
theories/FluxLog.v
theories/FluxRun.v
theories/WeightDemo.v
theories/WeightProps.v
theories/ExcludeSpec.v
theories/ExcludeFacts.v
theories/ExcludeBuilt.v
theories/ExcludeProgram.v
theories/ExcludeDemo.v
theories/ExcludeProps.v
theories/HaltSpec.v
theories/HaltRng.v
theories/HaltGap.v
theories/HaltSteps.v
theories/HaltWays.v
theories/HaltLine.v
theories/HaltEnds.v
theories/HaltRounds.v
theories/HaltDemo.v
theories/HaltProps.v
theories/ReturnSpec.v
theories/ReturnRounds.v
theories/ReturnRun.v
theories/ReturnDemo.v
theories/ReturnProgram.v
theories/ReturnCase.v
theories/ReturnProps.v
theories/LightSpec.v
theories/LightFacts.v
theories/LightBounce.v
theories/LightDemo.v
theories/LightProps.v
theories/SilentSpec.v
theories/SilentFacts.v
theories/IdleFacts.v
theories/SilentProps.v
theories/EmptySpec.v
theories/EmptyFacts.v
theories/FewFacts.v
theories/FewIeee.v
theories/EmptyProps.v
theories/SingleModel.v
theories/SegmentCount.v
theories/SingleFacts.v
theories/SegmentSingle.v
theories/SilentSpec32.v
theories/SilentFacts32.v
theories/IdleFacts32.v
theories/FewSingle.v
theories/DemoSingle.v
theories/SingleProps.v
