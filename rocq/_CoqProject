-Q theories Verif
theories/Base/Num.v
theories/Base/NumFacts.v
theories/Base/Tensor.v
theories/Base/Compute.v
theories/Model/FixedPoint.v
theories/Spec/Fixed.v
theories/Proofs/FixedPointP.v
theories/Proofs/TensorP.v
theories/Proofs/FixedPointLayerP.v
theories/Props/P_FixedPoint.v
theories/Model/Quantizer.v
theories/Spec/Quant.v
theories/Spec/History.v
theories/Proofs/QuantizerP.v
theories/Proofs/RecordP.v
theories/Proofs/BitsP.v
theories/Proofs/ShapeP.v
theories/Proofs/HistoryP.v
theories/Proofs/CallP.v
theories/Props/P_Quantizer.v
theories/Props/P_Range.v
theories/Model/Layers.v
theories/Spec/Layer.v
theories/Proofs/SampleP.v
theories/Proofs/ProxyElemP.v
theories/Proofs/LayersP.v
theories/Props/P_Layers.v
theories/Model/Graph.v
theories/Model/Convert.v
theories/Spec/Graph.v
theories/Proofs/ConvertP.v
theories/Props/P_Convert.v
theories/Model/Trace.v
theories/Spec/Trace.v
theories/Proofs/TraceP.v
theories/Proofs/FeedP.v
theories/Proofs/TraceMinmaxP.v
theories/Proofs/CoverP.v
theories/Proofs/TraceMoreP.v
theories/Proofs/ProxyModelP.v
theories/Props/P_Trace.v
theories/Proofs/ProxyLayerP.v
theories/Proofs/ProxyConvP.v
theories/Proofs/ProxyTraceP.v
theories/Proofs/ProxyGuardP.v
theories/Props/P_ProxyModel.v
theories/Model/Apf.v
theories/Spec/Apf.v
theories/Proofs/ApfP.v
theories/Props/P_Apf.v
theories/Model/Precision.v
theories/Spec/Precision.v
theories/Proofs/ContainerP.v
theories/Proofs/FitsP.v
theories/Proofs/PrecisionP.v
theories/Proofs/SoundP.v
theories/Proofs/IdemP.v
theories/Props/P_Precision.v
theories/Proofs/ReduceP.v
theories/Proofs/MergeP.v
theories/Props/P_Reduce.v
theories/Proofs/ConfigP.v
theories/Props/P_Merge.v
theories/Model/Conf.v
theories/Spec/Conf.v
theories/Proofs/ConfP.v
theories/Props/P_Conf.v
theories/Model/Lut.v
theories/Proofs/LutP.v
theories/Props/P_Lut.v
theories/Model/BatchNorm.v
theories/Spec/Norm.v
theories/Proofs/BatchNormP.v
theories/Props/P_BatchNorm.v
theories/Model/Qkeras.v
theories/Spec/Qkeras.v
theories/Props/P_Qkeras.v
theories/Model/Weights.v
theories/Spec/Weights.v
theories/Proofs/WeightsP.v
theories/Props/P_Weights.v
theories/Model/Passive.v
theories/Spec/Passive.v
theories/Proofs/PassiveP.v
theories/Props/P_Passive.v
theories/Model/Float32.v
theories/Spec/Float.v
theories/Proofs/Float32P.v
theories/Proofs/Float32Q.v
theories/Props/P_Float32.v
theories/Model/Bops.v
theories/Spec/Bops.v
theories/Proofs/BopsP.v
theories/Proofs/BopsL.v
theories/Props/P_Bops.v
theories/Model/TrainBops.v
theories/Proofs/TrainBopsP.v
theories/Props/P_TrainBops.v
theories/Spec/Overflow.v
theories/Proofs/OverflowP.v
theories/Props/P_Overflow.v
theories/Model/BopsGrad.v
theories/Spec/Reg.v
theories/Proofs/BopsGradP.v
theories/Props/P_BopsGrad.v
theories/Model/Serial.v
theories/Spec/Serial.v
theories/Proofs/SerialP.v
theories/Props/P_Serial.v
theories/Model/FloatLayer.v
theories/Spec/FloatLayer.v
theories/Proofs/FloatSumP.v
theories/Proofs/FloatLayerP.v
theories/Proofs/FloatModelP.v
theories/Props/P_FloatLayer.v
theories/Spec/Moving.v
theories/Proofs/MovingP.v
theories/Props/P_Moving.v
theories/Spec/Calib.v
theories/Model/Callbacks.v
theories/Proofs/CalibP.v
theories/Proofs/CalibBopsP.v
theories/Proofs/CalibStepP.v
theories/Props/P_Calib.v
theories/Spec/Adapt.v
theories/Proofs/AdaptP.v
theories/Props/P_Adapt.v
theories/Model/Register.v
theories/Spec/Register.v
theories/Proofs/RegisterP.v
theories/Props/P_Register.v
theories/Spec/NetEval.v
theories/Proofs/NetEvalP.v
theories/Proofs/TablesP.v
theories/Props/P_Tables.v
theories/Spec/Firmware.v
theories/Proofs/FirmwareP.v
theories/Proofs/FirmwareTablesP.v
theories/Proofs/TableSizeP.v
theories/Props/P_Firmware.v
theories/Model/QkerasLayer.v
theories/Spec/QkerasLayer.v
theories/Proofs/QkerasLayerP.v
theories/Props/P_QkerasLayer.v
theories/Props/P_TableSize.v
theories/Spec/Request.v
theories/Proofs/RequestP.v
theories/Props/P_Request.v
theories/Model/PassiveNet.v
theories/Spec/PassiveNet.v
theories/Proofs/PassiveNetP.v
theories/Props/P_PassiveNet.v
theories/Spec/Names.v
theories/Proofs/NamesP.v
theories/Model/SaveProxy.v
theories/Spec/SaveProxy.v
theories/Proofs/SaveProxyP.v
theories/Props/P_SaveProxy.v
theories/Model/Activation.v
theories/Spec/Activation.v
theories/Proofs/ActivationP.v
theories/Props/P_Activation.v
theories/Spec/EndToEnd.v
theories/Proofs/EndToEndP.v
theories/Props/P_EndToEnd.v
theories/Spec/Quiet.v
theories/Proofs/QuietP.v
theories/Props/P_Quiet.v
theories/Spec/Staged.v
theories/Proofs/StageP.v
theories/Proofs/StagedP.v
theories/Proofs/StageRunP.v
theories/Props/P_Staged.v
theories/Spec/Build.v
theories/Props/P_Build.v
theories/Spec/Steady.v
theories/Proofs/FormatP.v
theories/Proofs/EndQuietP.v
theories/Props/P_Steady.v
theories/Spec/Rounding.v
theories/Proofs/RoundingP.v
theories/Spec/BnStats.v
theories/Proofs/BnStatsP.v
theories/Model/Predict.v
theories/Spec/Predict.v
theories/Proofs/PredictP.v
theories/Props/P_Predict.v
theories/Model/Tracing.v
theories/Spec/Tracing.v
theories/Proofs/TracingP.v
theories/Props/P_Tracing.v
theories/Spec/Recalibrate.v
theories/Proofs/RecalibrateP.v
theories/Props/P_Recalibrate.v
theories/Model/TrainGrad.v
theories/Spec/TrainGrad.v
theories/Proofs/SlopeP.v
theories/Proofs/TrainGradP.v
theories/Props/P_TrainGrad.v
theories/Model/BnLayer.v
theories/Spec/BnLayer.v
theories/Proofs/BnLayerP.v
theories/Props/P_BnLayer.v
theories/Model/Attn.v
theories/Spec/Attn.v
theories/Proofs/AttnP.v
theories/Props/P_Attn.v
theories/Model/FloatNet.v
theories/Spec/FloatNet.v
theories/Proofs/FloatNetP.v
theories/Proofs/FloatProxyP.v
theories/Proofs/FloatProxyQ.v
theories/Props/P_FloatNet.v
theories/Model/Nodes.v
theories/Spec/Nodes.v
theories/Proofs/NodesP.v
theories/Props/P_Nodes.v
theories/Spec/Rename.v
theories/Proofs/RenameP.v
theories/Props/P_Rename.v
theories/Spec/Unseen.v
theories/Proofs/UnseenP.v
theories/Props/P_Unseen.v
theories/Spec/Prepared.v
theories/Proofs/PreparedP.v
theories/Proofs/FloatCoverP.v
theories/Props/P_FloatCover.v
theories/Props/P_Field.v
theories/Model/SaveNet.v
theories/Spec/SaveNet.v
theories/Proofs/SaveNetP.v
theories/Props/P_SaveNet.v
theories/Proofs/FactorsP.v
theories/Proofs/NarrowP.v
theories/Props/P_Factors.v
theories/Model/FloatModes.v
theories/Spec/FloatModes.v
theories/Proofs/FloatModesP.v
theories/Props/P_FloatModes.v
theories/Model/Casts.v
theories/Spec/Casts.v
theories/Proofs/CastsP.v
theories/Props/P_Casts.v
theories/Spec/BnAxes.v
theories/Proofs/BnAxesP.v
theories/Props/P_BnAxes.v
theories/Spec/ConvN.v
theories/Proofs/ConvNP.v
theories/Props/P_ConvN.v
theories/Proofs/BnElemP.v
theories/Props/P_BnElem.v
