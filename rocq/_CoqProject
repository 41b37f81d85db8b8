-Q theories Verif

theories/Base.v
theories/DecimalModel.v
theories/MathModel.v
theories/PoolModel.v
theories/DecimalStr.v
theories/BitmapModel.v
theories/ChainModel.v
theories/Concrete.v
theories/Conformance.v
theories/BaseLemmas.v
theories/DecimalSpec.v
theories/DecimalProofs.v
theories/SqrtProofs.v
theories/PowProofs.v
theories/PropDecimal.v
theories/BitmapProofs.v
theories/PropBitmap.v
theories/StrSpec.v
theories/DecimalStrProofs.v
theories/PropString.v
theories/TickProofs.v
theories/TickLoop.v
theories/PropTick.v
theories/MathProofs.v
theories/PropMath.v
theories/WfProofs.v
theories/PoolWf.v
theories/SwapLoop.v
theories/SwapProofs.v
theories/FinProofs.v
theories/HmmProofs.v
theories/LpProofs.v
theories/PoolInv.v
theories/PoolNonneg.v
theories/PoolLp.v
theories/PoolFees.v
theories/Examples.v
theories/PropSwap.v
theories/PoolRange.v
theories/PoolDir.v
theories/PropPool.v
theories/ChainLemmas.v
theories/ChainProofs.v
theories/ChainSpec.v
theories/ChainInv.v
theories/ChainFlow.v
theories/ChainLive.v
theories/PropChain.v
theories/PoolGain.v
theories/PoolScale.v
theories/PoolExit.v
theories/PoolEnter.v
theories/PropLp.v
theories/SwapAmounts.v
theories/SwapCover.v
theories/SwapWorth.v
theories/LpWorth.v
theories/PropWorth.v
theories/SwapFair.v
theories/LpFair.v
theories/PropFair.v
theories/FeeCredit.v
theories/FeePots.v
theories/PropFees.v
theories/PowAccuracy.v
theories/PowDec.v
theories/HmmUse.v
theories/PropPow.v
theories/LnSeries.v
theories/LnAccuracy.v
theories/LnUse.v
theories/LnHmm.v
theories/LnFacts.v
theories/PropLn.v
theories/HmmCurve.v
theories/HmmSend.v
theories/HmmPrice.v
theories/HmmFacts.v
theories/HmmSwap.v
theories/HmmOff.v
theories/PropHmm.v
theories/SwapReport.v
theories/PoolParams.v
theories/PropReport.v
theories/SwapMono.v
theories/SwapSplit.v
theories/PropSplit.v
theories/BoundProofs.v
theories/PropBound.v
theories/SwapStuck.v
theories/PropStuck.v
theories/SwapLive.v
theories/PropLive.v
theories/FloatBase.v
theories/FloatModel.v
theories/FloatConformance.v
theories/FloatFacts.v
theories/FloatWf.v
theories/FloatSwap.v
theories/FloatLp.v
theories/FloatBook.v
theories/FloatStuck.v
theories/FloatTrip.v
theories/FloatWit.v
theories/PropFloat.v
theories/FloatLog.v
theories/FloatLib.v
theories/FloatTick.v
theories/FloatConv.v
theories/PropLog.v
theories/FloatFlow.v
theories/PropFlow.v
theories/WdSplit.v
theories/PropWd.v
theories/LpOrder.v
theories/LpOrder2.v
theories/PropOrder.v
theories/SwapFull.v
theories/PropFull.v
theories/BytesModel.v
theories/BytesProofs.v
theories/PropBytes.v
theories/FloatOut.v
theories/PropOut.v
theories/XOffer.v
theories/PropXOffer.v
theories/ChainOrder.v
theories/PropChainOrder.v
theories/WorldModel.v
theories/WorldSpec.v
theories/WorldProofs.v
theories/WorldInv.v
theories/WorldSim.v
theories/WorldStep.v
theories/WorldThm.v
theories/WorldEx.v
theories/PropWorld.v
theories/FloatTerm.v
theories/PropTerm.v
theories/WorldLive.v
theories/PropWorldLive.v
theories/WorldFx.v
theories/PropWorldFx.v
theories/FloatLook.v
theories/PropLook.v
theories/FloatHmm.v
theories/PropFHmm.v
theories/FloatFee.v
theories/PropFFee.v
theories/WorldFlow.v
theories/PropWorldFlow.v
theories/FloatMove.v
theories/PropFMove.v
theories/PropFPay.v
theories/FloatFill.v
theories/PropFFill.v
theories/FloatIn.v
theories/PropFIn.v
theories/FloatFin.v
theories/PropFFin.v
theories/FloatCurve.v
theories/PropFCurve.v
theories/FloatPower.v
theories/PropFPower.v
theories/FloatNear.v
theories/FloatNearC.v
theories/PropFNear.v
theories/PropFThru.v
theories/PropFPast.v
