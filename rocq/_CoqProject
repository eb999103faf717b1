-Q theories Verif
theories/Model/Api.v
theories/Model/Asn1.v
theories/Model/Base.v
theories/Model/Base64.v
theories/Model/Ber.v
theories/Model/CaXml.v
theories/Model/Cache.v
theories/Model/CacheConc.v
theories/Model/CertRes.v
theories/Model/Cms.v
theories/Model/CrlMake.v
theories/Model/Ct.v
theories/Model/CtPool.v
theories/Model/Der.v
theories/Model/ErrReport.v
theories/Model/ErrText.v
theories/Model/Explore.v
theories/Model/ExtMake.v
theories/Model/FileDecoders.v
theories/Model/GoTime.v
theories/Model/Info.v
theories/Model/Json.v
theories/Model/Local.v
theories/Model/NetCache.v
theories/Model/NetIP.v
theories/Model/NetText.v
theories/Model/ObjDer.v
theories/Model/Octo.v
theories/Model/Output.v
theories/Model/Ov.v
theories/Model/Paths.v
theories/Model/Patricia.v
theories/Model/Pool.v
theories/Model/Repo.v
theories/Model/Report.v
theories/Model/Roa.v
theories/Model/Rrdp.v
theories/Model/RrdpHttp.v
theories/Model/RrdpXml.v
theories/Model/RsaPriv.v
theories/Model/RsyncList.v
theories/Model/Server.v
theories/Model/Shared.v
theories/Model/StateFile.v
theories/Model/Str.v
theories/Model/SubMap.v
theories/Model/Tal.v
theories/Model/TalDer.v
theories/Model/TalText.v
theories/Model/Validator.v
theories/Model/X509.v
theories/Model/XmlLex.v
theories/Spec/Addr.v
theories/Spec/ApiSpec.v
theories/Spec/B64.v
theories/Spec/BerSpec.v
theories/Spec/Bits.v
theories/Spec/CaXmlSpec.v
theories/Spec/CacheConcSpec.v
theories/Spec/Canon.v
theories/Spec/ChainSpec.v
theories/Spec/CmsSpec.v
theories/Spec/ContentSpec.v
theories/Spec/CrlMakeSpec.v
theories/Spec/CrlSpec.v
theories/Spec/CtPoolSpec.v
theories/Spec/CtSpec.v
theories/Spec/Discovery.v
theories/Spec/EndSpec.v
theories/Spec/ErrReportSpec.v
theories/Spec/ErrTextSpec.v
theories/Spec/ExtMakeSpec.v
theories/Spec/HonestSpec.v
theories/Spec/InfoSpec.v
theories/Spec/IpExtSpec.v
theories/Spec/JsonSpec.v
theories/Spec/LocalSpec.v
theories/Spec/MapSpec.v
theories/Spec/NetCacheSpec.v
theories/Spec/ObjSpec.v
theories/Spec/OctoSpec.v
theories/Spec/OutputSpec.v
theories/Spec/OvSpec.v
theories/Spec/PathSpec.v
theories/Spec/PoolSpec.v
theories/Spec/RepoSpec.v
theories/Spec/ReportSpec.v
theories/Spec/Resources.v
theories/Spec/RevokeSpec.v
theories/Spec/RrdpHttpSpec.v
theories/Spec/RrdpSpec.v
theories/Spec/RsaSpec.v
theories/Spec/RsyncSpec.v
theories/Spec/Safe.v
theories/Spec/ServerSpec.v
theories/Spec/SharedSpec.v
theories/Spec/SignedSpec.v
theories/Spec/StateSpec.v
theories/Spec/SubMapSpec.v
theories/Spec/TalSpec.v
theories/Spec/TimeSpec.v
theories/Spec/Trust.v
theories/Spec/VerdictSpec.v
theories/Spec/X509Spec.v
theories/Spec/XmlSpec.v
theories/Spec/XmlTextSpec.v
theories/Proofs/ApiProofs.v
theories/Proofs/ApiWitness.v
theories/Proofs/Asn1Proofs.v
theories/Proofs/Base64Proofs.v
theories/Proofs/BerGrowth.v
theories/Proofs/BerProofs.v
theories/Proofs/CaXmlProofs.v
theories/Proofs/CaXmlRun.v
theories/Proofs/CaXmlThm.v
theories/Proofs/CaXmlWrite.v
theories/Proofs/CacheConcEnds.v
theories/Proofs/CacheConcGood.v
theories/Proofs/CacheConcHosts.v
theories/Proofs/CacheConcLast.v
theories/Proofs/CacheConcProofs.v
theories/Proofs/CacheConcRead.v
theories/Proofs/CacheConcThm.v
theories/Proofs/CacheConcWitness.v
theories/Proofs/CacheEvents.v
theories/Proofs/CacheProofs.v
theories/Proofs/CacheThm.v
theories/Proofs/CacheWitness.v
theories/Proofs/CertProofs.v
theories/Proofs/CmsProofs.v
theories/Proofs/ContentProofs.v
theories/Proofs/CrlKey.v
theories/Proofs/CrlMakeProofs.v
theories/Proofs/CrlMakeThm.v
theories/Proofs/CrlMakeWitness.v
theories/Proofs/CrlProofs.v
theories/Proofs/CtPoolProofs.v
theories/Proofs/CtPoolRun.v
theories/Proofs/CtProofs.v
theories/Proofs/DecodeProofs.v
theories/Proofs/DerBytes.v
theories/Proofs/DerInside.v
theories/Proofs/DerPrim.v
theories/Proofs/DerProofs.v
theories/Proofs/EncodeProofs.v
theories/Proofs/EndMeaning.v
theories/Proofs/EndThm.v
theories/Proofs/EndWitness.v
theories/Proofs/ErrReportProofs.v
theories/Proofs/ErrReportThm.v
theories/Proofs/ErrReportWitness.v
theories/Proofs/ErrTextProofs.v
theories/Proofs/ErrTextRes.v
theories/Proofs/ErrTextThm.v
theories/Proofs/ErrTextWitness.v
theories/Proofs/ExploreFacts.v
theories/Proofs/ExploreInv.v
theories/Proofs/ExploreThm.v
theories/Proofs/ExploreWitness.v
theories/Proofs/ExportProofs.v
theories/Proofs/ExtMakeProofs.v
theories/Proofs/Fermat.v
theories/Proofs/GivenInv.v
theories/Proofs/HeapProofs.v
theories/Proofs/HonestBase.v
theories/Proofs/HonestProofs.v
theories/Proofs/HonestWitness.v
theories/Proofs/InfoProofs.v
theories/Proofs/Invalidate.v
theories/Proofs/JsonEnc.v
theories/Proofs/JsonProofs.v
theories/Proofs/JsonSound.v
theories/Proofs/JsonStr.v
theories/Proofs/JsonVal.v
theories/Proofs/JudgeProofs.v
theories/Proofs/ListProofs.v
theories/Proofs/ListText.v
theories/Proofs/LocalInv.v
theories/Proofs/LocalThm.v
theories/Proofs/LocalWitness.v
theories/Proofs/MapDirProofs.v
theories/Proofs/NetCacheProofs.v
theories/Proofs/NetCacheRun.v
theories/Proofs/NetCacheThm.v
theories/Proofs/NetIPProofs.v
theories/Proofs/NetTextProofs.v
theories/Proofs/ObjBytes.v
theories/Proofs/ObjEncode.v
theories/Proofs/ObjInside.v
theories/Proofs/ObjRound.v
theories/Proofs/ObjSign.v
theories/Proofs/ObjTop.v
theories/Proofs/ObjWitness.v
theories/Proofs/OctoDisk.v
theories/Proofs/OctoLoop.v
theories/Proofs/OctoProofs.v
theories/Proofs/OctoWitness.v
theories/Proofs/OutputProofs.v
theories/Proofs/OvProofs.v
theories/Proofs/PathProofs.v
theories/Proofs/PatriciaProofs.v
theories/Proofs/PoolProofs.v
theories/Proofs/Provenance.v
theories/Proofs/RepoProofs.v
theories/Proofs/RepoWitness.v
theories/Proofs/ReportInv.v
theories/Proofs/ReportThm.v
theories/Proofs/ReportWitness.v
theories/Proofs/RevokeProofs.v
theories/Proofs/RevokeThm.v
theories/Proofs/RevokeWitness.v
theories/Proofs/RoaProofs.v
theories/Proofs/RrdpCrash.v
theories/Proofs/RrdpHttpProofs.v
theories/Proofs/RrdpHttpThm.v
theories/Proofs/RrdpProofs.v
theories/Proofs/RrdpThm.v
theories/Proofs/RrdpWitness.v
theories/Proofs/RsaProofs.v
theories/Proofs/RsaThm.v
theories/Proofs/RsyncListProofs.v
theories/Proofs/ServerProofs.v
theories/Proofs/SharedProofs.v
theories/Proofs/SharedThm.v
theories/Proofs/SharedWait.v
theories/Proofs/SignedProofs.v
theories/Proofs/SignedThm.v
theories/Proofs/StateAny.v
theories/Proofs/StateProofs.v
theories/Proofs/StrProofs.v
theories/Proofs/SubMapProofs.v
theories/Proofs/SubMapThm.v
theories/Proofs/TalDerProofs.v
theories/Proofs/TalTextProofs.v
theories/Proofs/TimeProofs.v
theories/Proofs/TrieProofs.v
theories/Proofs/ValidatorAccept.v
theories/Proofs/ValidatorFacts.v
theories/Proofs/ValidatorInv.v
theories/Proofs/ValidatorMisc.v
theories/Proofs/ValidatorMono.v
theories/Proofs/ValidatorPanic.v
theories/Proofs/ValidatorRes.v
theories/Proofs/ValidatorRun.v
theories/Proofs/ValidatorWitness.v
theories/Proofs/VerdictProofs.v
theories/Proofs/VerdictThm.v
theories/Proofs/VerdictWitness.v
theories/Proofs/Witness.v
theories/Proofs/WordProofs.v
theories/Proofs/X509Bytes.v
theories/Proofs/X509Proofs.v
theories/Proofs/X509Refute.v
theories/Proofs/X509Thm.v
theories/Proofs/X509Witness.v
theories/Proofs/XmlLexBase.v
theories/Proofs/XmlLexDoc.v
theories/Proofs/XmlLexRrdp.v
theories/Proofs/XmlLexRun.v
theories/Proofs/XmlLexTag.v
theories/Proofs/XmlLexThm.v
theories/Proofs/XmlLexTok.v
theories/Proofs/XmlProofs.v
theories/Proofs/XmlThm.v
theories/Props/ApiProps.v
theories/Props/BerProps.v
theories/Props/BytesProps.v
theories/Props/CaXmlProps.v
theories/Props/CacheConcProps.v
theories/Props/CacheProps.v
theories/Props/CertProps.v
theories/Props/CmsProps.v
theories/Props/ContentProps.v
theories/Props/CrlMakeProps.v
theories/Props/CrlProps.v
theories/Props/CtPoolProps.v
theories/Props/CtProps.v
theories/Props/EndProps.v
theories/Props/ErrReportProps.v
theories/Props/ErrTextProps.v
theories/Props/ExploreProps.v
theories/Props/ExtMakeProps.v
theories/Props/HonestProps.v
theories/Props/InfoProps.v
theories/Props/LocalProps.v
theories/Props/MapProps.v
theories/Props/NetCacheProps.v
theories/Props/ObjProps.v
theories/Props/OctoProps.v
theories/Props/OutputProps.v
theories/Props/OvProps.v
theories/Props/PoolProps.v
theories/Props/RepoProps.v
theories/Props/ReportProps.v
theories/Props/RevokeProps.v
theories/Props/RoaProps.v
theories/Props/RrdpHttpProps.v
theories/Props/RrdpProps.v
theories/Props/RsaProps.v
theories/Props/RsyncListProps.v
theories/Props/ServerProps.v
theories/Props/SharedProps.v
theories/Props/StateProps.v
theories/Props/SubMapProps.v
theories/Props/TalProps.v
theories/Props/ValidatorProps.v
theories/Props/VerdictProps.v
theories/Props/X509Props.v
theories/Props/XmlProps.v
theories/Props/XmlTextProps.v
