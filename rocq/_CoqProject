-Q theories Verif
theories/Base.v
theories/Hamming.v
theories/HammingProofs.v
theories/Majority.v
theories/Flash.v
theories/PropCodes.v
theories/FS.v
theories/Sectors.v
theories/SectorsProofs.v
theories/PropSectors.v
theories/ATable.v
theories/TornCode.v
theories/TableCode.v
theories/TableScan.v
theories/ChipRules.v
theories/TableBuild.v
theories/TableOps.v
theories/DirOps.v
theories/Chains.v
theories/FileIO.v
theories/FileFormat.v
theories/FileWrite.v
theories/WriteOps.v
theories/WriteSpec.v
theories/Disk.v
theories/Sessions.v
theories/DirState.v
theories/OpenOps.v
theories/Append.v
theories/OpenWrite.v
theories/FsSpec.v
theories/FsApi.v
theories/FsRefine.v
theories/FsBoot.v
theories/FsHistory.v
theories/PropDirectory.v
theories/PropSpace.v
theories/FsExec.v
theories/PropCapacity.v
theories/PropFiles.v
theories/PropRules.v
theories/FsExamples.v
theories/Iter.v
theories/PropIter.v
theories/PropIds.v
theories/RwLock.v
theories/PropLock.v
theories/Deadlock.v
theories/PropDeadlock.v
theories/ManagedErase.v
theories/PropErase.v
theories/BitSlice.v
theories/PropBits.v
theories/DeltaLogger.v
theories/PropLogger.v
theories/FixedPoint.v
theories/PropFixed.v
theories/Ring.v
theories/PropRing.v
theories/ReedSolomon.v
theories/VLP.v
theories/PropVLP.v
theories/Numerics.v
theories/FlightCore.v
theories/PropFlight.v
theories/PropBackup.v
theories/Avionics.v
theories/PropAvionics.v
theories/Channels.v
theories/PropChannels.v
theories/Console.v
theories/PropConsole.v
theories/Config.v
theories/PropConfig.v
theories/Can.v
theories/PropCan.v
theories/Vl8.v
theories/PropVl8.v
theories/Gps.v
theories/PropGps.v
theories/Nmea.v
theories/PropNmea.v
theories/HostTime.v
theories/PropTime.v
theories/VlpLink.v
theories/PropLink.v
theories/VerticalSpeed.v
theories/PropSpeed.v
theories/Telemetry.v
theories/PropTelemetry.v
theories/Clock.v
theories/PropClock.v
theories/EnumLog.v
theories/PropEnumLog.v
theories/PropDelete.v
theories/PubSub.v
theories/PropBuffered.v
theories/Indicator.v
theories/PropIndicator.v
theories/Pyro.v
theories/PropPyro.v
theories/SgProcess.v
theories/PropSg.v
theories/FloatFixed.v
theories/FloatErr.v
theories/PropFloat.v
theories/PropFactory.v
theories/SensorDelta.v
theories/PropSensors.v
theories/PropGpsLog.v
theories/PropLowPower.v
theories/FloatTime.v
theories/FloatLut.v
theories/PropLut.v
theories/Ferraris.v
theories/PropFerraris.v
theories/PropCalib.v
theories/CalibFile.v
theories/PropCalibFile.v
theories/FlashIO.v
theories/PropFlashIO.v
theories/Gcm.v
theories/PropGcm.v
theories/PullAll.v
theories/PropPullAll.v
theories/Boot.v
theories/PropBoot.v
theories/HostLog.v
theories/PropHostLog.v
theories/PropShared.v
theories/Vacuum.v
theories/PropVacuum.v
theories/PropVacuumFile.v
theories/Vl8Drivers.v
theories/PropVl8Drivers.v
theories/HostConfig.v
theories/PropHostConfig.v
theories/HostSg.v
theories/PropHostSg.v
theories/PropLutMono.v
theories/PropChip.v
theories/PropFirstUse.v
theories/PropValues.v
theories/SimClock.v
theories/PropSimClock.v
theories/VSerial.v
theories/PropVSerial.v
theories/Keyframe.v
theories/PropKeyframe.v
theories/PropReader.v
theories/ConSession.v
theories/PropSession.v
theories/LiveSg.v
theories/PropLive.v
theories/SelfTest.v
theories/PropSelfTest.v
theories/PropClear.v
theories/Announce.v
theories/PropAnnounce.v
theories/SgStatus.v
theories/PropSgStatus.v
theories/StatFlash.v
theories/PropStat.v
theories/Storage.v
theories/PropStorage.v
theories/LoraText.v
theories/PropLoraText.v
theories/PropRetention.v
theories/Commands.v
theories/PropCommands.v
theories/StatusBus.v
theories/PropStatusBus.v
theories/PropNonce.v
theories/PropReports.v
theories/TimeBus.v
theories/PropTimeBus.v
theories/Claims.v
theories/PropClaims.v
theories/Dates.v
theories/PropDates.v
theories/SgDates.v
theories/PropSgDates.v
theories/PropStill.v
