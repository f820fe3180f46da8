-Q theories Verif
theories/Outcome.v
theories/GF.v
theories/GFProofs.v
theories/GFField.v
theories/GFRegion.v
theories/GFPoly.v
theories/Linear.v
theories/RegionFacts.v
theories/PropsGF.v
theories/Containers.v
theories/ContainersFacts.v
theories/Packetizer.v
theories/PacketizerFacts.v
theories/PropsPacketizer.v
theories/Matrix.v
theories/MatrixFacts.v
theories/PropsMatrix.v
theories/Rate.v
theories/RateFacts.v
theories/Encoder.v
theories/EncoderRun.v
theories/EncoderFacts.v
theories/EncoderHistory.v
theories/EncoderSafe.v
theories/PropsEncoder.v
theories/DetailDecoder.v
theories/Decoder.v
theories/DecoderAlgebra.v
theories/DecoderInv.v
theories/DecoderStep.v
theories/DecoderFacts.v
theories/DecoderOuter.v
theories/Dispatch.v
theories/PropsDecoder.v
theories/System.v
theories/Genuine.v
theories/DecoderHeld.v
theories/SystemInv.v
theories/SystemRun.v
theories/PropsSystem.v
theories/DecoderThrow.v
theories/DecoderRecover.v
theories/SystemArrive.v
theories/PropsRecover.v
theories/DecoderProgress.v
theories/DecoderPrompt.v
theories/SystemFifo.v
theories/SystemLossless.v
theories/PropsFifo.v
theories/PropsWrap.v
theories/DecoderOrder.v
theories/PropsModes.v
theories/BlindSpot.v
theories/Stall.v
theories/PropsBlind.v
theories/Handlers.v
theories/PropsHandlers.v
theories/DecoderHandlers.v
theories/DecoderHandlersFacts.v
theories/PropsDecoderHandlers.v
theories/Reentrant.v
theories/ReentrantFacts.v
theories/PropsReentrant.v
theories/ReentrantSender.v
theories/PropsReentrantSender.v
theories/RateExact.v
theories/PropsRate.v
theories/Packet.v
theories/PropsPacket.v
theories/CApi.v
theories/PropsCApi.v
theories/PropsSizes.v
theories/DecoderSuffix.v
theories/PropsSuffix.v
theories/Tunnel.v
theories/TunnelFacts.v
theories/PropsTunnel.v
theories/AckPeriod.v
theories/CSession.v
theories/CObjects.v
theories/PropsCSession.v
theories/PropsAckPeriod.v
theories/PropsFeedback.v
theories/PropsCObjects.v
theories/PropsBuilds.v
theories/PropsMemory.v
theories/Proxy.v
theories/PropsProxy.v
theories/Tools.v
theories/PropsTools.v
theories/Oneway.v
theories/PropsOneway.v
theories/SystemGroups.v
theories/PropsGroups.v
theories/PropsSync.v
theories/PropsWire.v
theories/PropsAcks.v
theories/Scratch.v
theories/ScratchFacts.v
theories/PropsScratch.v
theories/PropsWide.v
theories/PropsGaps.v
theories/EndToEnd.v
theories/PropsEndToEnd.v
theories/Iterators.v
theories/IteratorsFacts.v
theories/PropsIterators.v
theories/Basic.v
theories/PropsBasic.v
theories/PropsHostile.v
theories/Conformance.v
theories/Multi.v
theories/PropsMulti.v
theories/PropsLong.v
theories/Senders.v
theories/PropsSenders.v
theories/DecoderCount.v
theories/PropsCount.v
theories/SystemAnyCode.v
theories/PropsAnyCode.v
theories/DecoderBound.v
theories/PropsBound.v
theories/Twins.v
theories/PropsTwins.v
theories/Determined.v
theories/PropsOptimal.v
theories/TwoLosses.v
theories/PropsTwo.v
theories/PropsLag.v
theories/PropsCheckpoint.v
theories/SenderMemory.v
theories/PropsSenderMemory.v
theories/ReceiverMemory.v
theories/PropsReceiverMemory.v
theories/Mixed.v
theories/PropsMixed.v
theories/PropsRestart.v
theories/Repeat.v
theories/Tally.v
theories/PropsRepeat.v
