-Q theories Verif
theories/Base.v
theories/BaseLemmas.v
theories/Sqrt.v
theories/SqrtProofs.v
theories/SimplePool.v
theories/SimplePoolProofs.v
theories/SpecSimple.v
theories/SimplePoolInv.v
theories/SimpleFacts.v
theories/PropSimple.v
theories/Farming.v
theories/SpecFarming.v
theories/FarmingProofs.v
theories/FarmingInv.v
theories/FarmingWorld.v
theories/PropFarming.v
theories/FarmingViews.v
theories/SpecFarmNear.v
theories/PropFarmNear.v
theories/SpecFarmLive.v
theories/PropFarmLive.v
theories/SpecTrade.v
theories/PropTrade.v
theories/StableMath.v
theories/StablePool.v
theories/SpecStable.v
theories/StableMathProofs.v
theories/StablePoolProofs.v
theories/StablePoolInv.v
theories/StableFacts.v
theories/PropStable.v
theories/Rates.v
theories/SpecRates.v
theories/RatesProofs.v
theories/PropRates.v
theories/Echo.v
theories/PropEcho.v
theories/Twap.v
theories/SpecTwap.v
theories/PropTwap.v
theories/Account.v
theories/Pool.v
theories/Exchange.v
theories/SpecExchange.v
theories/AccountProofs.v
theories/PoolFacts.v
theories/ExchangeProofs.v
theories/ExchangeInv.v
theories/ExchangeEffect.v
theories/ExchangeFrames.v
theories/SpecWorld.v
theories/WorldProofs.v
theories/ExExample.v
theories/PropWorld.v
theories/SpecSwap.v
theories/SwapProofs.v
theories/PropSwap.v
theories/SpecHistory.v
theories/HistoryProofs.v
theories/PropCalls.v
theories/PropHistory.v
theories/PropShares.v
theories/SpecAccess.v
theories/AccessProofs.v
theories/FrozenProofs.v
theories/PropAccess.v
theories/Views.v
theories/ViewProofs.v
theories/PropViews.v
theories/PropOwn.v
theories/SpecExact.v
theories/StableExact.v
theories/PropExact.v
theories/StablePrecise.v
theories/PropPrecise.v
theories/PropIds.v
theories/TwapInv.v
theories/SpecRecords.v
theories/PropRecords.v
theories/SpecExit.v
theories/ExitProofs.v
theories/PropExit.v
theories/SpecSettings.v
theories/PropSettings.v
theories/SpecNear.v
theories/PropNear.v
theories/Boost.v
theories/SpecBoost.v
theories/BoostInv.v
theories/BoostCalls.v
theories/BoostFit.v
theories/PropBoost.v
theories/PropBoostStake.v
theories/PropBoostFarm.v
theories/PropBoostAccess.v
theories/PropBoostLive.v
theories/PropBoostLimits.v
theories/BoostViews.v
theories/PropBoostViews.v
theories/SpecShadow.v
theories/ShadowProofs.v
theories/PropShadow.v
theories/PropCap.v
theories/PropPrice.v
theories/SpecTradeLive.v
theories/TradeLive.v
theories/PropTradeLive.v
theories/LiquidityLive.v
theories/PropLiquidity.v
theories/ChainLive.v
theories/ZapLive.v
theories/PropChain.v
theories/Listing.v
theories/PropShown.v
theories/PropChosen.v
theories/Token.v
theories/SpecToken.v
theories/TokenProofs.v
theories/JointProofs.v
theories/PropToken.v
theories/SpecStake.v
theories/StakeProofs.v
theories/PropStake.v
theories/PropUnstake.v
theories/SpecFarmToken.v
theories/PropFarmToken.v
theories/SpecListed.v
theories/PropListed.v
theories/PropPaid.v
theories/Keys.v
theories/PropKeys.v
theories/FarmIds.v
theories/PropFarmIds.v
theories/SpecLockup.v
theories/LockupProofs.v
theories/PropLockup.v
theories/RateViews.v
theories/PropRateViews.v
theories/SpecPaths.v
theories/PathProofs.v
theories/PropPaths.v
theories/SpecCalm.v
theories/CalmProofs.v
theories/PropCalm.v
theories/PropPages.v
theories/SpecCalmWorld.v
theories/PropCalmWorld.v
theories/SettingsViews.v
theories/PropSettingsShown.v
theories/Oracles.v
theories/SpecOracles.v
theories/OraclesProofs.v
theories/PropOracles.v
theories/PropRateWorld.v
