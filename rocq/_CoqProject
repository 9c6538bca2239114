-Q theories Verif
theories/Base.v
theories/TimingModel.v
theories/TimingSpec.v
theories/TimingProofs.v
theories/TimingProofs2.v
theories/TimingProofs3.v
theories/TimingProofs4.v
theories/TimingProps.v
theories/Q1Model.v
theories/Q1Machine.v
theories/Q1Spec.v
theories/Q1Blk.v
theories/Q1Gen.v
theories/Q1Ops.v
theories/Q1Forest.v
theories/Q1Whole.v
theories/Q1Props.v
theories/Q1Props2.v
theories/Q1Acq.v
theories/RegModel.v
theories/NumericModel.v
theories/NumericProps.v
theories/FreqModel.v
theories/FreqProps.v
theories/WfModel.v
theories/WfProps.v
theories/AcqIndexModel.v
theories/AcqIndexProps.v
theories/AcqRetrieve.v
theories/UpdModel.v
theories/UpdProps.v
theories/AcqChanModel.v
theories/AcqChanProps.v
theories/QSort.v
theories/RfModel.v
theories/RfProps.v
theories/StackModel.v
theories/StackSweep.v
theories/StackProps.v
theories/StitchModel.v
theories/StitchProps.v
theories/StitchFactories.v
theories/StitchRamp.v
theories/CrossModel.v
theories/CrossProps.v
theories/LatencyModel.v
theories/LatencyProps.v
theories/CoordModel.v
theories/CoordProps.v
theories/SchedModel.v
theories/SchedProps.v
theories/TableModel.v
theories/TableProps.v
theories/RzModel.v
theories/RzProps.v
theories/PulseCompModel.v
theories/PulseCompProps.v
theories/PulseCompProps2.v
theories/PulseCompProps3.v
theories/PulseCompProps4.v
theories/AcqChanProps2.v
theories/DistModel.v
theories/DistSpec.v
theories/DistSort.v
theories/DistProps.v
theories/DistTree.v
theories/DistThms.v
theories/DistExamples.v
theories/CircModel.v
theories/CircSpec.v
theories/CircProps.v
theories/CircProps2.v
theories/CircProps3.v
theories/CircProps4.v
theories/CircProps5.v
theories/ClockSpec.v
theories/ClockProps.v
theories/ClockExamples.v
theories/CircProps6.v
theories/CondModel.v
theories/CondSpec.v
theories/CondProps.v
theories/CondProps2.v
theories/CondProps3.v
theories/CondProps4.v
theories/CondProps5.v
theories/CondProps6.v
theories/CondProps7.v
theories/CondThms.v
theories/CondThms2.v
theories/CondThms3.v
theories/CondRefute.v
theories/PathModel.v
theories/PathStr.v
theories/PathSpec.v
theories/PathProps.v
theories/PathProps2.v
theories/PathProps3.v
theories/PathProps4.v
theories/PathProps5.v
theories/PathProps6.v
theories/PathThms.v
theories/PathThms2.v
theories/PathThms3.v
theories/PathThms4.v
theories/PathThms5.v
theories/PathRefute.v
theories/LibModel.v
theories/LibSpec.v
theories/LibProps.v
theories/LibEngine.v
theories/LibProps2.v
theories/LibThms.v
theories/LibThms2.v
theories/LibThms3.v
theories/LibThms4.v
theories/LibThms5.v
theories/LibThms6.v
theories/LibThms7.v
theories/LibThms8.v
theories/LibLoop.v
theories/LibThms9.v
theories/LibRefute.v
theories/JsonModel.v
theories/JsonSpec.v
theories/JsonProps.v
theories/JsonProps2.v
theories/JsonProps3.v
theories/JsonProps4.v
theories/JsonThms.v
theories/JsonHash.v
theories/JsonSame.v
theories/JsonCheck.v
theories/JsonThms2.v
theories/JsonRefute.v
theories/ZiModel.v
theories/ZiSpec.v
theories/ZiProps.v
theories/ZiProps2.v
theories/ZiProps3.v
theories/ZiClock.v
theories/ZiTable.v
theories/ZiTable2.v
theories/ZiCorr.v
theories/ZiShift.v
theories/ZiThms1.v
theories/ZiAccept.v
theories/ZiCompile.v
theories/ZiThms2.v
theories/ZiIds.v
theories/ZiThms3.v
theories/ZiQa.v
theories/ZiThms4.v
theories/ZiExamples.v
theories/ZiOverlap.v
theories/ZiFlat.v
theories/ZiFlatProps.v
theories/ZiFlatThms.v
theories/ZiFlatRes.v
theories/QbModel.v
theories/QbSpec.v
theories/QbProps.v
theories/QbSeq.v
theories/QbSeq2.v
theories/QbPrep.v
theories/QbThms.v
theories/QbMod.v
theories/QbMod2.v
theories/QbMod3.v
theories/QbMod4.v
theories/QbCal.v
theories/QbCal2.v
theories/QbCal3.v
theories/QbCal4.v
theories/QbAccept.v
theories/QbExample.v
theories/QbQtmSpec.v
theories/QbQtm.v
theories/QbClModel.v
theories/QbClSpec.v
theories/QbClProps.v
theories/QbClThms.v
theories/QbClThms2.v
theories/QbClExample.v
theories/RetModel.v
theories/RetSpec.v
theories/RetProps.v
theories/RetOwn.v
theories/RetWhole.v
theories/RetMerge.v
theories/RetParts.v
theories/RetThms.v
theories/RetAccept.v
theories/RetCluster.v
theories/RetExample.v
theories/GettModel.v
theories/GettSpec.v
theories/GettProps.v
theories/GettThms.v
theories/GettErr.v
theories/GettExample.v
theories/GettAccept.v
theories/PipeModel.v
theories/PipeSpec.v
theories/PipeThms.v
theories/PipeExample.v
theories/DevModel.v
theories/DevSpec.v
theories/DevProps.v
theories/DevProps2.v
theories/DevProps3.v
theories/DevThms.v
theories/DevThms2.v
theories/DevConf.v
theories/DevConfSpec.v
theories/DevConfProps.v
theories/DevConfThms.v
theories/DevConfThms2.v
theories/DevConfThms3.v
theories/DevConfThms4.v
theories/DevConfAccept.v
theories/DevExample.v
theories/DcModel.v
theories/DcSpec.v
theories/DcProps.v
theories/DcThms.v
theories/DcAccept.v
theories/DcExample.v
theories/OvModel.v
theories/OvSpec.v
theories/OvProps.v
theories/OvThms.v
theories/OvExample.v
theories/FacModel.v
theories/FacSpec.v
theories/FacProps.v
theories/FacThms.v
theories/FacThms2.v
theories/FacThms3.v
theories/FacThms4.v
theories/FacThms5.v
theories/FacThms6.v
theories/FacThms7.v
theories/FacThms8.v
theories/FacThms9.v
theories/FacExample.v
theories/GateMat.v
theories/GateModel.v
theories/GateSpec.v
theories/GateProps.v
theories/GateThms.v
theories/GateThms2.v
theories/GateVirtual.v
theories/GateExample.v
theories/FacThms10.v
theories/ZiFreqModel.v
theories/ZiFreqSpec.v
theories/ZiFreqProps.v
theories/ZiFreqProps2.v
theories/ZiFreqThms.v
theories/ZiFreqThms2.v
theories/ZiFreqExample.v
theories/NcoModel.v
theories/NcoSpec.v
theories/NcoProps.v
theories/NcoThms.v
theories/NcoThms2.v
theories/NcoProps2.v
theories/NcoThms3.v
theories/AcqSetModel.v
theories/AcqSetSpec.v
theories/AcqSetProps.v
theories/AcqSetThms.v
theories/AcqSetThms2.v
theories/AcqSetThms3.v
theories/AcqSetThms4.v
theories/FineModel.v
theories/FineSpec.v
theories/FineProps.v
theories/FineThms.v
theories/FineThms2.v
theories/WaveModel.v
theories/WaveThms.v
theories/WaveRModel.v
theories/WaveRThms.v
theories/WaveRThms2.v
theories/WaveRThms3.v
theories/AmpModel.v
theories/AmpSpec.v
theories/AmpProps.v
theories/AmpThms.v
theories/AmpThms2.v
theories/OptModel.v
theories/OptSpec.v
theories/OptProps.v
theories/OptThms.v
theories/OptThms2.v
theories/OptThms3.v
theories/RtfModel.v
theories/RtfSpec.v
theories/RtfProps.v
theories/RtfProps2.v
theories/RtfThms.v
theories/RtfThms2.v
theories/RtfThms3.v
theories/MockModel.v
theories/MockProps.v
theories/MockProps2.v
theories/MockThms.v
theories/MockThms2.v
theories/TrefModel.v
theories/TrefThms.v
theories/TrefThms2.v
theories/InitModel.v
theories/InitProps.v
theories/InitProps2.v
theories/InitThms.v
theories/InitThms2.v
theories/InitThms3.v
