-Q theories Verif
theories/Base.v
theories/BaseProofs.v
theories/BitTac.v
theories/JumpSpec.v
theories/RemoteModel.v
theories/JumpModel.v
theories/JumpProofs.v
theories/JumpProperties.v
theories/SafetyModel.v
theories/SafetySpec.v
theories/SafetyProofs.v
theories/SafetyGate.v
theories/SafetyProperties.v
theories/PtraceModel.v
theories/PtraceSpec.v
theories/PtraceProofs.v
theories/PtraceRunProofs.v
theories/PtraceProperties.v
theories/HoleModel.v
theories/EngineModel.v
theories/EngineSpec.v
theories/LayoutProofs.v
theories/EngineProofs.v
theories/ApplyProofs.v
theories/PeekProofs.v
theories/UnpatchProofs.v
theories/RollbackProofs.v
theories/EngineFinal.v
theories/EngineExamples.v
theories/EngineProperties.v
theories/HoleSpec.v
theories/HoleProofs.v
theories/PlaceProofs.v
theories/HoleProperties.v
theories/RbModel.v
theories/RbSpec.v
theories/RbProofs.v
theories/RbProperties.v
theories/RbHeapModel.v
theories/RbHeapSpec.v
theories/RbHeapProofs.v
theories/RbHeapProofs2.v
theories/RbHeapProofs3.v
theories/RbHeapProperties.v
theories/StorageModel.v
theories/StorageSpec.v
theories/StorageProofs.v
theories/StorageProperties.v
theories/RelocModel.v
theories/RelocSpec.v
theories/RelocBits.v
theories/RelocProofs.v
theories/RelocA64.v
theories/RelocRv.v
theories/RelocLa.v
theories/RelocRefuse.v
theories/RelocProperties.v
theories/ElfModel.v
theories/ElfSpec.v
theories/ElfJump.v
theories/ElfNote.v
theories/ElfDyn.v
theories/ElfSeg.v
theories/ElfHdr.v
theories/ElfProperties.v
theories/ServModel.v
theories/ServSpec.v
theories/ServProofs.v
theories/ServProperties.v
theories/MakeModel.v
theories/MakeProofs.v
theories/MakeProperties.v
theories/ProcModel.v
theories/ProcSpec.v
theories/ProcProofs.v
theories/ProcSelect.v
theories/ProcMaps.v
theories/ProcInfo.v
theories/ProcProperties.v
theories/CliModel.v
theories/CliSpec.v
theories/CliProofs.v
theories/CliProperties.v
theories/DriverModel.v
theories/DriverSpec.v
theories/DriverProofs.v
theories/DriverSteps.v
theories/DriverProperties.v
theories/TextModel.v
theories/ParseModel.v
theories/DbgModel.v
theories/RenameModel.v
theories/CmpModel.v
theories/GenModel.v
theories/GenSpec.v
theories/GenFrame.v
theories/GenSteps.v
theories/GenOther.v
theories/GenLoad.v
theories/GenOut.v
theories/GenWrite.v
theories/GenWrite2.v
theories/GenWrite3.v
theories/GenWhole.v
theories/GenChange.v
theories/GenNames.v
theories/GenComm.v
theories/GenSame.v
theories/GenSameProperties.v
theories/GenTwinSpec.v
theories/GenTwin.v
theories/GenTwinProperties.v
theories/GenProperties.v
theories/TextSpec.v
theories/TextProofs.v
theories/TextLines.v
theories/TextStmt.v
theories/TextProperties.v
theories/RenameSpec.v
theories/RenameProofs.v
theories/RenameProperties.v
theories/GotSpec.v
theories/GotProofs.v
theories/GotProperties.v
theories/CmpSpec.v
theories/CmpProofs.v
theories/CmpProperties.v
theories/ParseSpec.v
theories/ParseProofs.v
theories/SectSpec.v
theories/SectProofs.v
theories/ParseProperties.v
theories/DbgSpec.v
theories/DbgProofs.v
theories/DbgProperties.v
theories/CoroModel.v
theories/CoroSpec.v
theories/CoroProofs.v
theories/CoroProperties.v
theories/CopyModel.v
theories/CopyProofs.v
theories/CopyProperties.v
theories/StripModel.v
theories/StripSpec.v
theories/StripProofs.v
theories/StripProperties.v
theories/FixupModel.v
theories/FixupSpec.v
theories/FixupProofs.v
theories/FixupProperties.v
theories/CcModel.v
theories/CcSpec.v
theories/CcProofs.v
theories/CcRun.v
theories/CcMain.v
theories/CcWhole.v
theories/CcBuild.v
theories/CcFrame.v
theories/CcProperties.v
theories/LoopModel.v
theories/LoopSpec.v
theories/LoopProofs.v
theories/LoopTrace.v
theories/LoopProperties.v
theories/MapsModel.v
theories/MapsSpec.v
theories/MapsProofs.v
theories/MapsProperties.v
theories/StartModel.v
theories/StartSpec.v
theories/StartProofs.v
theories/StartProperties.v
theories/DumpModel.v
theories/DumpProofs.v
theories/DumpProperties.v
theories/DetachModel.v
theories/DetachProofs.v
theories/DetachProperties.v
theories/ListModel.v
theories/ListSpec.v
theories/ListProofs.v
theories/ListProperties.v
theories/AgainProofs.v
theories/AgainProperties.v
theories/StripMainModel.v
theories/StripMainSpec.v
theories/StripMainProofs.v
theories/StripMainProperties.v
theories/MapObjModel.v
theories/MapObjSpec.v
theories/MapObjProofs.v
theories/MapObjProperties.v
theories/ManySpec.v
theories/ManyProofs.v
theories/ManyProperties.v
theories/LpModel.v
theories/LpSpec.v
theories/LpProofs.v
theories/LpProperties.v
theories/UnitSpec.v
theories/UnitProofs.v
theories/UnitProofs2.v
theories/UnitProperties.v
theories/CallModel.v
theories/CallSpec.v
theories/CallProofs.v
theories/CallProperties.v
theories/GenMainModel.v
theories/GenMainSpec.v
theories/GenMainProofs.v
theories/GenMainProperties.v
theories/RaceModel.v
theories/RaceSpec.v
theories/RaceProofs.v
theories/RaceProperties.v
theories/PkgModel.v
theories/PkgSpec.v
theories/PkgProofs.v
theories/PkgProperties.v
theories/LogModel.v
theories/LogSpec.v
theories/LogProofs.v
theories/LogProperties.v
theories/InstModel.v
theories/InstSpec.v
theories/InstProofs.v
theories/InstProperties.v
theories/ExecModel.v
theories/ExecSpec.v
theories/ExecProofs.v
theories/ExecProperties.v
theories/LoptModel.v
theories/LoptSpec.v
theories/LoptProofs.v
theories/LoptProperties.v
theories/MadeProperties.v
theories/ToilModel.v
theories/ToilSpec.v
theories/ToilProofs.v
theories/ToilProperties.v
theories/PlaceProperties.v
theories/SureProperties.v
theories/ToilRunProperties.v
theories/PkoptModel.v
theories/PkoptSpec.v
theories/PkoptProofs.v
theories/PkoptProperties.v
theories/PkarcModel.v
theories/PkarcSpec.v
theories/PkarcProofs.v
theories/PkarcProperties.v
theories/OnlyProperties.v
theories/UtilModel.v
theories/UtilSpec.v
theories/UtilProofs.v
theories/UtilProperties.v
theories/BackModel.v
theories/BackProofs.v
theories/BackProperties.v
theories/RbMoreModel.v
theories/RbMoreSpec.v
theories/RbMoreProofs.v
theories/RbMoreProperties.v
theories/ListMoreModel.v
theories/ListMoreProofs.v
theories/ListMoreProperties.v
theories/ListLoopModel.v
theories/ListLoopProofs.v
theories/ListLoopProperties.v
theories/FastModel.v
theories/FastProofs.v
theories/FastProperties.v
theories/TestsModel.v
theories/TestsProofs.v
theories/TestsProperties.v
theories/GccTestModel.v
theories/GccTestProofs.v
theories/GccTestProperties.v
theories/GrowModel.v
theories/GrowProofs.v
theories/GrowProperties.v
theories/SectFreeModel.v
theories/SectFreeProofs.v
theories/SectFreeProperties.v
theories/StreamModel.v
theories/StreamProofs.v
theories/StreamProperties.v
