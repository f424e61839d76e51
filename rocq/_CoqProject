-Q theories Verif
theories/Py.v
theories/MBits.v
theories/MPn9.v
theories/MRate.v
theories/MFields.v
theories/MModul.v
theories/MOfdm.v
theories/Tables.v
theories/MMrOfdm.v
theories/MFsk.v
theories/MOqpsk.v
theories/Vectors.v
theories/PList.v
theories/SBits.v
theories/SEntry.v
theories/PBits.v
theories/PEntry.v
theories/Prop_Bits.v
theories/SPn9.v
theories/PPn9.v
theories/Prop_Pn9.v
theories/SRate.v
theories/PConv.v
theories/PRate.v
theories/PRate34.v
theories/Prop_Rate.v
theories/PFskFec.v
theories/SFsk.v
theories/PFsk.v
theories/Prop_Fsk.v
theories/SCrc.v
theories/PPoly.v
theories/PFields.v
theories/Prop_Fields.v
theories/SOfdm.v
theories/PModul.v
theories/POfdm.v
theories/SMrOfdm.v
theories/PStd.v
theories/Prop_Ofdm.v
theories/PMrOfdm.v
theories/PMrRx.v
theories/Prop_MrOfdm.v
theories/SOqpsk.v
theories/POqpsk.v
theories/POqRun.v
theories/Prop_Oqpsk.v
theories/MTime.v
theories/STime.v
theories/PTime.v
theories/Prop_Time.v
theories/MWave.v
theories/SWave.v
theories/PWave.v
theories/SOqRate.v
theories/Prop_Wave.v
theories/MFskWave.v
theories/SFskWave.v
theories/Prop_FskWave.v
theories/MTools.v
theories/STools.v
theories/Prop_Tools.v
theories/SFloat.v
theories/PFloat.v
theories/SGap.v
theories/PGap.v
theories/Prop_Gap.v
theories/Prop_Float.v
theories/PFskGap.v
theories/Prop_FskGap.v
theories/SFskGap.v
theories/PFskNoise.v
theories/Prop_FskNoise.v
theories/SPower.v
theories/PPower.v
theories/Prop_Power.v
theories/SOqGap.v
theories/POqGap.v
theories/Prop_OqGap.v
theories/POqNoise.v
theories/Prop_OqNoise.v
theories/Prop_Pulse.v
theories/SOqRx.v
theories/POqRx.v
theories/Prop_OqRx.v
theories/Prop_Count.v
theories/MOfdmArgs.v
theories/SOfdmArgs.v
theories/Prop_OfdmArgs.v
theories/MOfdmMem.v
theories/SOfdmMem.v
theories/Prop_OfdmMem.v
theories/SMrRx.v
theories/PRecv.v
theories/PChannel.v
theories/Prop_MrRx.v
theories/SCfo.v
theories/PCfo.v
theories/Prop_Cfo.v
theories/STrack.v
theories/Prop_Track.v
theories/SOfdmAcq.v
theories/POfdmAcq.v
theories/Prop_OfdmAcq.v
theories/SFskAcq.v
theories/Prop_FskAcq.v
theories/SOqCfo.v
theories/POqCfo.v
theories/Prop_OqCfo.v
theories/SFskRx.v
theories/PSync.v
theories/Prop_FskRx.v
theories/SOqMf.v
theories/Prop_OqMf.v
theories/SOqDs.v
theories/Prop_OqDs.v
theories/SMdsss.v
theories/Prop_Mdsss.v
theories/SOqSync.v
theories/Prop_OqSync.v
theories/Prop_OqRate.v
theories/SOqAcq.v
theories/POqAcq.v
theories/Prop_OqAcq.v
theories/Prop_OqLoss.v
theories/SVit.v
theories/PVit.v
theories/PSoft.v
theories/PBessel.v
theories/Prop_Vit.v
theories/SFskVit.v
theories/PFskVit.v
theories/PFskSoft.v
theories/Prop_FskVit.v
theories/SAcc.v
theories/Prop_Acc.v
theories/SOqVit.v
theories/Prop_OqVit.v
theories/SOqLong.v
theories/Prop_OqLong.v
theories/SOqBurst.v
theories/Prop_OqBurst.v
theories/SFade.v
theories/PFskFade.v
theories/Prop_FskFade.v
theories/SAir.v
theories/Prop_Air.v
theories/SBand.v
theories/PBand.v
theories/Prop_Band.v
theories/Prop_FskAir.v
theories/Prop_OqAir.v
theories/PPeak.v
theories/Prop_OqPeak.v
theories/Prop_Silent.v
