-Q theories Verif
theories/Base.v
theories/Machine.v
theories/Json.v
theories/Config.v
theories/Histogram.v
theories/Profile.v
theories/Adc.v
theories/ReadDisturb.v
theories/Parasitics.v
theories/Mapper.v
theories/IntMappers.v
theories/BnnMappers.v
theories/TnnMappers.v
theories/Crossbar.v
theories/Api.v
theories/Emu.v
theories/RMachine.v
theories/RSpec.v
theories/ParSpec.v
theories/FloatMachine.v
theories/Lib.v
theories/Hoare.v
theories/ParCode.v
theories/WriteProofs.v
theories/Shape.v
theories/MvmShape.v
theories/DigMvm.v
theories/DigModes.v
theories/DigWrite.v
theories/AnaShape.v
theories/ConfigProofs.v
theories/Reach.v
theories/Cells.v
theories/Spec.v
theories/DigApi.v
theories/Invar.v
theories/StepFacts.v
theories/Demo.v
theories/DigProps.v
theories/ApiProps.v
theories/NoDie.v
theories/StoreProps.v
theories/FrameProps.v
theories/SafeProps.v
theories/PyProps.v
theories/ValidProps.v
theories/CfgProps.v
theories/LeakProps.v
theories/AdcProps.v
theories/FloatAdc.v
theories/ResProps.v
theories/EmuProps.v
theories/HistProps.v
theories/HistEx.v
theories/NoiseProps.v
theories/NoiseReal.v
theories/D2dProps.v
theories/NoiseFloat.v
theories/RdSpec.v
theories/RdProps.v
theories/RdApi.v
theories/RdRefresh.v
theories/RdReal.v
theories/RdEx.v
theories/AnaReal.v
theories/Ladder.v
theories/AnaXnn.v
theories/AnaInt.v
theories/AnaWrite.v
theories/AnaSpec.v
theories/AnaApi.v
theories/AnaMvm.v
theories/AnaProps.v
theories/AnaEx.v
theories/HistSpec.v
theories/HistCount.v
theories/HistBins.v
theories/HistOk.v
theories/AnaClip.v
theories/AnaFloat.v
theories/Twin.v
theories/KinSpec.v
theories/Kin.v
theories/KinProps.v
theories/KinEx.v
theories/ParMvm.v
theories/ParProps.v
theories/ParReal.v
theories/ParBound.v
theories/ParEx.v
theories/WireSpec.v
theories/Wire.v
theories/Follow.v
theories/WireXnn.v
theories/WireInt.v
theories/WireProps.v
theories/WireTight.v
theories/WireEx.v
theories/RepoTests.v
theories/DocSpec.v
theories/DocProps.v
theories/DocEx.v
theories/LaxSpec.v
theories/LaxProps.v
theories/LaxEx.v
theories/WideSpec.v
theories/WideProps.v
theories/WideEx.v
theories/OddSpec.v
theories/OddProps.v
theories/OddEx.v
theories/ProfSpec.v
theories/ProfProps.v
theories/ProfMean.v
theories/ProfEx.v
theories/ProfFloat.v
theories/MemSpec.v
theories/MemProps.v
theories/MemEx.v
theories/P_Digital.v
theories/P_Api.v
theories/P_Store.v
theories/P_Memory.v
theories/AnaMemSpec.v
theories/AnaMem.v
theories/AnaMemEx.v
theories/P_AnaMemory.v
theories/ShiftUb.v
theories/ShiftTnn.v
theories/ShiftSafe.v
theories/ShiftInt.v
theories/ShiftAna.v
theories/ShiftEx.v
theories/P_Valid.v
theories/ThrowUpd.v
theories/ThrowEx.v
theories/P_Config.v
theories/OneLevel.v
theories/OneEx.v
theories/P_Adc.v
theories/HistBad.v
theories/HistBadEx.v
theories/BinsAny.v
theories/P_Hist.v
theories/P_Profile.v
theories/P_Emu.v
theories/P_Noise.v
theories/P_Disturb.v
theories/P_Analog.v
theories/P_Repeat.v
theories/ParOff.v
theories/ParOffEx.v
theories/ParSoft.v
theories/ParSoftEx.v
theories/P_Parasitics.v
theories/P_Wires.v
theories/StaleDoc.v
theories/P_Document.v
theories/P_Wide.v
theories/ZeroSlice.v
theories/ZeroEx.v
theories/P_Slice.v
theories/LostReal.v
theories/LostEx.v
theories/NegWire.v
theories/NegEx.v
theories/P_Negative.v
theories/Exact32.v
theories/ExactMvm.v
theories/ExactApi.v
theories/ExactEx.v
theories/P_Exact.v
