-Q theories Verif
theories/Base.v
theories/BaseFacts.v
theories/KeyModel.v
theories/KeySpec.v
theories/KeyProofs.v
theories/KeyProofs2.v
theories/KeyProofs3.v
theories/KeyProperties.v
theories/KeyVal.v
theories/KeyValBridge.v
theories/PrgModel.v
theories/PrgSpec.v
theories/PrgProofs.v
theories/PrgProperties.v
theories/HmacModel.v
theories/HmacSpec.v
theories/HmacProofs.v
theories/HmacProofs2.v
theories/HmacProperties.v
theories/StrstrModel.v
theories/StrstrProofs.v
theories/StrstrProperties.v
theories/SetHashModel.v
theories/SetHashSpec.v
theories/SetHashProofs.v
theories/SetHashProperties.v
theories/CipherModel.v
theories/CipherSpec.v
theories/CipherProofs.v
theories/CipherProperties.v
theories/RcprfModel.v
theories/RcprfSpec.v
theories/RcprfProofs.v
theories/RcprfProofs2.v
theories/RcprfProofs3.v
theories/RcprfProofs4.v
theories/RcprfProofs5.v
theories/RcprfProofs6.v
theories/RcprfProperties.v
theories/WrapperModel.v
theories/WrapperInst.v
theories/WrapperSpec.v
theories/WrapperProofs.v
theories/WrapperProofs2.v
theories/WrapperProperties.v
theories/AezModel.v
theories/AezProofs.v
theories/AezProofs2.v
theories/AezProofs3.v
theories/AezProofs4.v
theories/AezProofs5.v
theories/AezProofs6.v
theories/AezProofs7.v
theories/AesRound.v
theories/PrpModel.v
theories/PrpSpec.v
theories/PrpProofs.v
theories/PrpProperties.v
theories/WrapperInst2.v
theories/WrapperProofs3.v
theories/WrapperProperties2.v
theories/Base64Model.v
theories/Base64Spec.v
theories/Base64Proofs.v
theories/Base64Proofs2.v
theories/Base64Proofs3.v
theories/Base64Proofs4.v
theories/Base64Proofs5.v
theories/Base64Properties.v
theories/MpiModel.v
theories/PemModel.v
theories/PemSpec.v
theories/PemProofs.v
theories/PemProofs2.v
theories/MpiProofs.v
theories/AsnModel.v
theories/RsaKeyModel.v
theories/RsaKeySpec.v
theories/AsnProofs.v
theories/AsnProofs2.v
theories/AsnProofs3.v
theories/AsnProofs4.v
theories/AsnProofs5.v
theories/TdpKeyModel.v
theories/RsaKeyProofs.v
theories/RsaKeyProofs2.v
theories/RsaKeyExample.v
theories/RsaKeyProofs3.v
theories/PemProperties.v
theories/RsaKeyProperties.v
theories/WrapperInst3.v
theories/WrapperProofs4.v
theories/WrapperProperties3.v
theories/TdpModel.v
theories/TdpSpec.v
theories/FermatProofs.v
theories/RsaMathProofs.v
theories/TdpProofs.v
theories/TdpProofs2.v
theories/TdpProofs3.v
theories/TdpExample.v
theories/TdpProofs4.v
theories/TdpProperties.v
theories/PpkeModel.v
theories/PpkeSpec.v
theories/PpkeProofs.v
theories/PpkeProofs2.v
theories/PpkeProofs3.v
theories/PpkeProofs4.v
theories/PpkeExample.v
theories/PpkeProperties.v
theories/LimbModel.v
theories/LimbSpec.v
theories/LimbProofs.v
theories/LimbProofs2.v
theories/LimbProofs3.v
theories/LimbProofs4.v
theories/LimbProofs5.v
theories/LimbProofs6.v
theories/LimbProofs7.v
theories/LimbProofs8.v
theories/LimbProperties.v
theories/LimbModel2.v
theories/LimbSpec2.v
theories/LimbProofs9.v
theories/LimbProofs10.v
theories/LimbProofs11.v
theories/LimbProofs12.v
theories/LimbProofs13.v
theories/LimbProofs14.v
theories/LimbProperties2.v
theories/LimbSpec3.v
theories/LimbProofs15.v
theories/LimbProofs16.v
theories/LimbProofs17.v
theories/LimbProofs18.v
theories/LimbProperties3.v
theories/LimbRsaModel.v
theories/LimbRsaSpec.v
theories/LimbKeyModel.v
theories/LimbProofs19.v
theories/LimbProofs20.v
theories/LimbProofs21.v
theories/LimbProofs22.v
theories/LimbProofs23.v
theories/LimbProofs24.v
theories/LimbProofs25.v
theories/LimbProofs26.v
theories/LimbProofs27.v
theories/LimbProofs28.v
theories/LimbProofs29.v
theories/LimbProofs30.v
theories/LimbProofs31.v
theories/LimbProofs32.v
theories/LimbProofs33.v
theories/LimbRsaProperties.v
theories/AezSpec.v
theories/AezProofs8.v
theories/AezProofs9.v
theories/AezProofs10.v
theories/AezProofs11.v
theories/AezProofs12.v
theories/AezProperties.v
theories/OsslModel.v
theories/OsslSpec.v
theories/OsslProofs.v
theories/OsslProofs2.v
theories/OsslProofs3.v
theories/OsslProofs4.v
theories/OsslProperties.v
theories/BnMulModel.v
theories/BnMulSpec.v
theories/BnMulProofs.v
theories/BnMulProofs2.v
theories/BnMulProofs3.v
theories/BnMulProperties.v
theories/BnStrModel.v
theories/BnStrSpec.v
theories/BnStrProofs.v
theories/BnStrProofs2.v
theories/BnStrProofs3.v
theories/BnStrProofs4.v
theories/BnStrProofs5.v
theories/BnStrProperties.v
theories/RelicModel.v
theories/RelicSpec.v
theories/RelicProofs.v
theories/RelicProofs2.v
theories/LagrangeProofs.v
theories/RelicProofs3.v
theories/RelicProperties.v
theories/LimbResize.v
theories/LimbProperties4.v
theories/AezAuthModel.v
theories/AezAuthSpec.v
theories/AezProofs13.v
theories/AezProofs14.v
theories/AezProofs15.v
theories/AezProofs16.v
theories/AezAuthProperties.v
theories/AezArchSpec.v
theories/AezArchModel.v
theories/AezProofs17.v
theories/AezProofs18.v
theories/AezArchProperties.v
theories/AezMemModel.v
theories/AezMemSpec.v
theories/AezProofs19.v
theories/AezProofs20.v
theories/AezProofs21.v
theories/AezMemProperties.v
theories/AsnModel2.v
theories/AsnSpec2.v
theories/AsnProofs6.v
theories/AsnProofs7.v
theories/AsnProofs8.v
theories/AsnProofs9.v
theories/AsnProofs10.v
theories/AsnProperties2.v
theories/HeapModel.v
theories/HeapSpec.v
theories/HeapProofs.v
theories/HeapProofs2.v
theories/HeapProofs3.v
theories/HeapProperties.v
theories/PemHeapModel.v
theories/PemHeapProofs.v
theories/PemHeapProperties.v
theories/NamedModel.v
theories/NamedSpec.v
theories/NamedProofs.v
theories/NamedProofs2.v
theories/NamedProofs3.v
theories/NamedProperties.v
theories/RandomModel.v
theories/RandomSpec.v
theories/RandomProofs.v
theories/RandomProperties.v
theories/TdpHeapModel.v
theories/TdpHeapSpec.v
theories/TdpHeapProofs.v
theories/TdpHeapProofs2.v
theories/TdpHeapProofs3.v
theories/TdpHeapProperties.v
theories/PoolHeapModel.v
theories/PoolHeapSpec.v
theories/PoolHeapProofs.v
theories/PoolHeapProofs2.v
theories/PoolHeapProperties.v
theories/LocalHeapModel.v
theories/LocalHeapSpec.v
theories/LocalHeapProofs.v
theories/LocalHeapProofs2.v
theories/LocalHeapProperties.v
theories/LockModel.v
theories/LockSpec.v
theories/LockProofs.v
theories/LockProperties.v
theories/OsslHeapModel.v
theories/OsslHeapSpec.v
theories/OsslHeapProofs.v
theories/OsslHeapProofs2.v
theories/OsslHeapProperties.v
theories/PkHeapModel.v
theories/PkHeapSpec.v
theories/PkHeapProofs.v
theories/PkHeapProofs2.v
theories/PkHeapProofs3.v
theories/PkHeapProperties.v
theories/ZrTextModel.v
theories/ZrTextSpec.v
theories/ZrTextProofs.v
theories/ZrTextProperties.v
theories/RsaPairModel.v
theories/RsaPairSpec.v
theories/RsaPairProofs.v
theories/RsaPairProperties.v
theories/LimbWriteModel.v
theories/LimbWriteProofs.v
theories/LimbWriteProperties.v
theories/LimbProofs34.v
theories/LimbRsaProperties2.v
theories/AezArmMemModel.v
theories/AezProofs22.v
theories/AezArmMemProperties.v
theories/OsslFailModel.v
theories/OsslFailSpec.v
theories/OsslFailProofs.v
theories/OsslFailProperties.v
theories/ThreadModel.v
theories/ThreadSpec.v
theories/ThreadProofs.v
theories/ThreadProperties.v
theories/BlindThreadModel.v
theories/BlindThreadSpec.v
theories/BlindThreadProofs.v
theories/BlindThreadProofs2.v
theories/BlindThreadProperties.v
theories/CacheThreadModel.v
theories/CacheThreadSpec.v
theories/CacheThreadProofs.v
theories/CacheThreadProperties.v
theories/RelicObjModel.v
theories/RelicObjSpec.v
theories/RelicObjProofs.v
theories/RelicObjProperties.v
theories/OsslProofs5.v
theories/TmpModel.v
theories/TmpSpec.v
theories/TmpProofs.v
theories/TmpProofs2.v
theories/TmpProofs3.v
theories/TmpProofs4.v
theories/TmpProperties.v
theories/WrapAllocModel.v
theories/WrapAllocProofs.v
theories/WrapAllocProperties.v
theories/RcObjModel.v
theories/RcObjSpec.v
theories/RcObjProofs.v
theories/RcObjProperties.v
theories/RcCallModel.v
theories/RcCallSpec.v
theories/RcCallProofs.v
theories/RcCallProperties.v
theories/PrfObjModel.v
theories/PrfObjSpec.v
theories/PrfObjProofs.v
theories/PrfObjProofs2.v
theories/PrfObjProperties.v
theories/ShPrintModel.v
theories/ShPrintSpec.v
theories/ShPrintProofs.v
theories/ShPrintProperties.v
