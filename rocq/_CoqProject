-Q theories Verif
theories/Res.v
theories/Word.v
theories/F32.v
theories/F32Flocq.v
theories/TimeProofs.v
theories/P_Time.v
theories/Table.v
theories/TableSpec.v
theories/TableProofs.v
theories/P_Table.v
theories/Arr.v
theories/Callbacks.v
theories/CallbackSpec.v
theories/CallbackRun.v
theories/CallbackProofs.v
theories/P_Callbacks.v
theories/Outputs.v
theories/Buffers.v
theories/OutputSpec.v
theories/OutputRun.v
theories/OutputProofs.v
theories/BufferProofs.v
theories/RunProofs.v
theories/P_Outputs.v
theories/AngleProofs.v
theories/PulseProofs.v
theories/Wave.v
theories/WaveProofs.v
theories/P_Pulses.v
theories/P_Delay.v
theories/RelErr.v
theories/Decoder.v
theories/DecoderProofs.v
theories/DecoderSafe.v
theories/DecoderRun.v
theories/DecoderMissing.v
theories/DecoderAngle.v
theories/DecoderLoss.v
theories/P_Decoder.v
theories/Wheel.v
theories/WheelProofs.v
theories/WheelRun.v
theories/WheelAngle.v
theories/P_Wheel.v
theories/DecoderEven.v
theories/EvenProofs.v
theories/EvenSpec.v
theories/EvenRun.v
theories/P_Even.v
theories/Interval.v
theories/Calc.v
theories/CalcSpec.v
theories/CalcProofs.v
theories/FuelProofs.v
theories/DefaultConfig.v
theories/P_Calc.v
theories/System.v
theories/SystemProofs.v
theories/CallbackSafe.v
theories/SystemRun.v
theories/P_System.v
theories/SystemOutputs.v
theories/P_SystemOutputs.v
theories/FinBack.v
theories/Sensors.v
theories/SensorSpec.v
theories/SensorProofs.v
theories/KnockSpec.v
theories/KnockProofs.v
theories/P_Sensors.v
theories/ThermProofs.v
theories/P_SensorInputs.v
theories/Tasks.v
theories/TaskSpec.v
theories/TaskProofs.v
theories/P_Tasks.v
theories/P_AllTasks.v
theories/EventLog.v
theories/EventLogSpec.v
theories/EventLogProofs.v
theories/P_EventLog.v
theories/Cbor.v
theories/Console.v
theories/ConsoleSpec.v
theories/ConsoleProofs.v
theories/ConsoleSafe.v
theories/ConsoleDefined.v
theories/ConsoleNav.v
theories/ConsoleLeaf.v
theories/ConsoleShape.v
theories/P_Console.v
theories/Framing.v
theories/CborGrammar.v
theories/FramingSpec.v
theories/FramingProofs.v
theories/CborProofs.v
theories/CborSpec.v
theories/CborRfc.v
theories/P_Framing.v
theories/Hosted.v
theories/HostedSpec.v
theories/HostedProofs.v
theories/P_Hosted.v
theories/Captures.v
theories/CaptureSpec.v
theories/CaptureProofs.v
theories/P_Captures.v
theories/Adc.v
theories/AdcSpec.v
theories/P_Adc.v
theories/Flash.v
theories/P_Flash.v
theories/WheelCam.v
theories/WheelCamProofs.v
theories/P_WheelCam.v
theories/Sim.v
theories/SimSpec.v
theories/P_Sim.v
theories/CrankSpec.v
theories/P_Crank.v
theories/P_CrankEven.v
theories/SparkSpec.v
theories/SparkAbs.v
theories/Spark.v
theories/SparkProofs.v
theories/SparkAim.v
theories/P_Spark.v
theories/Freq.v
theories/FreqSpec.v
theories/P_Freq.v
theories/FuelSpec.v
theories/FuelAccuracy.v
theories/P_Fuel.v
theories/Wire.v
theories/WireSpec.v
theories/WireProofs.v
theories/ConsoleFine.v
theories/P_Wire.v
theories/P_Defined.v
theories/VarySpec.v
theories/VaryCrank.v
theories/SteerSpec.v
theories/VaryAim.v
theories/SteerRun.v
theories/P_Vary.v
theories/P_Steer.v
theories/FwSpec.v
theories/FwLink.v
theories/FwRun.v
theories/P_Firmware.v
theories/SafeSpec.v
theories/SafeDec.v
theories/FwSafe.v
theories/P_Safe.v
theories/PaceSpec.v
theories/Pace.v
theories/P_Pace.v
theories/Rig.v
theories/RigSpec.v
theories/Factory.v
theories/RigProofs.v
theories/P_Rig.v
theories/P_Ship.v
