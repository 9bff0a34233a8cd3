-Q theories Verif

theories/OrderTree.v
theories/KeyBits.v
theories/OrderTreeRep.v
theories/OrderTreeOps.v
theories/OrderTreeOps2.v
theories/OrderTreeSpec.v
theories/BookArena.v
theories/BookArenaProofs.v
theories/BookArenaFacts.v
theories/PropOrderTree.v
theories/Keys.v
theories/PropKeys.v
theories/EventQueue.v
theories/PropEventQueue.v
theories/BookSide.v
theories/BookSideSpec.v
theories/BookSideProofs.v
theories/BookSideView.v
theories/BookSideWorst.v
theories/BookDepth.v
theories/PropBookSide.v
theories/Fixed.v
theories/PerpTypes.v
theories/Book.v
theories/BookLoop.v
theories/BookApply.v
theories/BookPlace.v
theories/BookSpec.v
theories/BookFacts.v
theories/BookResults.v
theories/BookResults2.v
theories/BookCancel.v
theories/BookKeep.v
theories/BookPrice.v
theories/PropBook.v
theories/PerpSystem.v
theories/PerpSpec.v
theories/PerpLots.v
theories/PerpInv.v
theories/PerpSlots.v
theories/PerpCancel.v
theories/PerpFeeSpec.v
theories/PerpFees.v
theories/PropPerp.v
theories/Interest.v
theories/InterestSpec.v
theories/InterestFacts.v
theories/Bank.v
theories/BankFacts.v
theories/BankSystem.v
theories/BankSpec.v
theories/BankInv.v
theories/BankSolvency.v
theories/BankResults.v
theories/BankShare.v
theories/PropInterest.v
theories/PropBank.v
theories/Buyback.v
theories/BuybackSpec.v
theories/BuybackFacts.v
theories/PropBuyback.v
theories/Div30.v
theories/Div30Facts.v
theories/PropDiv30.v
theories/GateTable.v
theories/IxGate.v
theories/PropIxGate.v
theories/SettleLimit.v
theories/SettleSpec.v
theories/SettleFacts.v
theories/PropSettle.v
theories/PerpMoney.v
theories/PerpMoneySpec.v
theories/PerpClaims.v
theories/PerpClaims2.v
theories/PropMoney.v
theories/PropPerpLiq.v
theories/Health.v
theories/HealthSpec.v
theories/HealthFacts.v
theories/HealthDiv.v
theories/HealthDiv2.v
theories/HealthOrders.v
theories/HealthMore.v
theories/HealthSkip.v
theories/PropHealth.v
theories/LiqState.v
theories/PropLiqState.v
theories/AccountSlots.v
theories/AccountSlotsSpec.v
theories/AccountSlotsFacts.v
theories/AccountSlotsInv.v
theories/PropAccountSlots.v
theories/Resize.v
theories/ResizeFacts.v
theories/PropResize.v
theories/PropBookLimit.v
theories/TxRules.v
theories/TxFacts.v
theories/TxMoney.v
theories/TxRegion.v
theories/PropTx.v
theories/Tcs.v
theories/TcsFacts.v
theories/TcsSpec.v
theories/TcsInv.v
theories/TcsMoney.v
theories/PropTcs.v
theories/PropTransfer.v
theories/Oracle.v
theories/OracleSpec.v
theories/OracleFacts.v
theories/PropOracle.v
theories/AuthTable.v
theories/Auth.v
theories/AuthSpec.v
theories/AuthFacts.v
theories/PropAuth.v
theories/TokenLiq.v
theories/TokenLiqSpec.v
theories/TokenLiqFacts.v
theories/PropTokenLiq.v
theories/TokenBankr.v
theories/TokenBankrSpec.v
theories/TokenBankrFacts.v
theories/PropTokenBankr.v
theories/ForceClose.v
theories/ForceCloseFacts.v
theories/PropForceClose.v
theories/CollatFee.v
theories/CollatFeeSpec.v
theories/CollatFeeFacts.v
theories/PropCollatFee.v
theories/Serum.v
theories/SerumSpec.v
theories/SerumFacts.v
theories/SerumCache.v
theories/SerumHist.v
theories/PropSerum.v
theories/PerpLiqBase.v
theories/PerpLiqBaseSpec.v
theories/PerpLiqBaseFacts.v
theories/PerpLiqBaseIx.v
theories/PropPerpLiqBase.v
theories/PerpLiqNeg.v
theories/PerpLiqNegSpec.v
theories/PerpLiqNegFacts.v
theories/PropPerpLiqNeg.v
theories/Scaling.v
theories/ScalingFacts.v
theories/PropScaling.v
theories/TokenMove.v
theories/TokenMoveFacts.v
theories/PropTokenMove.v
theories/SettleIx.v
theories/SettleIxFacts.v
theories/PropSettleIx.v
theories/PerpOrderIx.v
theories/PerpOrderFacts.v
theories/PropPerpOrder.v
theories/AdminEdit.v
theories/AdminSpec.v
theories/AdminFacts.v
theories/AdminHealth.v
theories/PropAdmin.v
theories/StablePrice.v
theories/StableFacts.v
theories/PropStable.v
theories/SettleFeesIx.v
theories/PropSettleFees.v
theories/HealthCheck.v
theories/PropHealthCheck.v
theories/ForceWithdraw.v
theories/PropForceWithdraw.v
theories/FeeSystem.v
theories/PropFeeSystem.v
theories/AccountLife.v
theories/PropAccountLife.v
theories/BuybackIx.v
theories/PropBuybackIx.v
theories/Registry.v
theories/PropRegistry.v
