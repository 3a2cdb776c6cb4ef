-Q theories Verif
theories/Base.v
theories/Curve.v
theories/Algebra.v
theories/Toy.v
theories/Spec.v
theories/Dlog.v
theories/DlogSpec.v
theories/DlogFacts.v
theories/DlogData.v
theories/DlogSound.v
theories/DlogComplete.v
theories/DlogSign.v
theories/DlogBind.v
theories/DlogAudit.v
theories/DlogHide.v
theories/DlogTop.v
theories/Translator.v
theories/TranslatorFacts.v
theories/ToyDlog.v
theories/PropsDlog.v
theories/Bridge.v
theories/BridgeFacts.v
theories/ToyCodec.v
theories/PropsBridge.v
theories/Bbs.v
theories/BbsSpec.v
theories/BbsFacts.v
theories/BbsProof.v
theories/BbsComplete.v
theories/BbsCache.v
theories/ToyBbs.v
theories/PropsBbs.v
theories/Aries.v
theories/AriesSpec.v
theories/AriesIssue.v
theories/AriesNym.v
theories/AriesVerify.v
theories/AriesSign.v
theories/AriesSound.v
theories/AriesForge.v
theories/AriesHide.v
theories/AriesBind.v
theories/ToyAries.v
theories/PropsAries.v
theories/PropsAriesMore.v
theories/PropsIssuer.v
theories/PropsDlogApi.v
theories/PropsHidden.v
theories/PropsNymApi.v
theories/PropsAriesApi.v
theories/PropsIssueApi.v
theories/BbsBind.v
theories/PropsBbsMore.v
theories/AriesUse.v
theories/PropsUsable.v
theories/Csp.v
theories/CspInst.v
theories/CspSpec.v
theories/CspFacts.v
theories/ToyCsp.v
theories/PropsCsp.v
theories/RunSpec.v
theories/RunFacts.v
theories/PropsRun.v
theories/PropsRunAries.v
theories/Msp.v
theories/MspId.v
theories/MspSpec.v
theories/MspFacts.v
theories/ToyMsp.v
theories/PropsMsp.v
theories/PropsMspId.v
theories/PropsMspSound.v
theories/StoreConc.v
theories/StoreConcFacts.v
theories/PropsStore.v
theories/Json.v
theories/JsonFacts.v
theories/PropsJson.v
theories/Idemixgen.v
theories/GenSpec.v
theories/GenFacts.v
theories/GenDlog.v
theories/PropsGen.v
theories/PropsMspAries.v
theories/PropsRevAlg.v
theories/Proto.v
theories/ProtoFacts.v
theories/PropsProto.v
theories/Schema.v
theories/PropsSchema.v
theories/PropsWire.v
theories/AriesReqHide.v
theories/BbsHide.v
theories/BbsPanic.v
theories/PropsHide.v
theories/PropsPanic.v
theories/PropsPanicIff.v
theories/AriesCard.v
theories/PropsCard.v
theories/PropsConf.v
theories/PropsNym.v
theories/PropsRobust.v
theories/AnonSpec.v
theories/AnonFacts.v
theories/PropsAnon.v
theories/CardRun.v
theories/PropsCardRun.v
theories/PropsSki.v
theories/Mem.v
theories/MemFacts.v
theories/PropsMem.v
theories/PropsIssuerImport.v
theories/MemParse.v
theories/MemParseFacts.v
theories/PropsMemParse.v
theories/AriesPanic.v
theories/PropsAriesPanic.v
theories/PropsAriesVerifyPanic.v
theories/AriesSignCard.v
theories/PropsCardPanic.v
theories/PropsWrongKey.v
theories/AriesSignPanic.v
theories/PropsMspPanic.v
theories/PropsWireRun.v
theories/PropsDefault.v
theories/PropsDefaultAries.v
theories/PropsType.v
theories/MspConc.v
theories/PropsMspConc.v
theories/PropsMspRead.v
theories/PropsMspType.v
