-Q theories Verif
theories/GoBase.v
theories/TextSpec.v
theories/StrLemmas.v
theories/UnitsModel.v
theories/DurationModel.v
theories/DurationSpec.v
theories/DurationProofs.v
theories/PropDuration.v
theories/GoVal.v
theories/TypesModel.v
theories/MessagesModel.v
theories/MessagesSpec.v
theories/MessagesProofs.v
theories/PropMessages.v
theories/PathModel.v
theories/PathSpec.v
theories/PathProofs.v
theories/RegistryModel.v
theories/RegistrySpec.v
theories/RegistryProofs.v
theories/RegistryConc.v
theories/RegistryConcSpec.v
theories/RegistryConcProofs.v
theories/RegistryList.v
theories/RegistryRace.v
theories/RegistryWitness.v
theories/PropPath.v
theories/PropRegistry.v
theories/RegistryStale.v
theories/PropRegistryConc.v
theories/RegionModel.v
theories/RegionSpec.v
theories/RegionProofs.v
theories/RegionThms.v
theories/RegionLive.v
theories/RegionStall.v
theories/RegionNestModel.v
theories/RegionNestSpec.v
theories/RegionNestProofs.v
theories/IdModel.v
theories/IdProofs.v
theories/PropRegion.v
theories/PropStall.v
theories/PropNest.v
theories/FloatBase.v
theories/DistModel.v
theories/DistSpec.v
theories/DistProofs.v
theories/DistThms.v
theories/DistQ.v
theories/DistApi.v
theories/PropDist.v
theories/MonitorModel.v
theories/MonitorSpec.v
theories/MonitorProofs.v
theories/DistConc.v
theories/DistConcProofs.v
theories/PropDistConc.v
theories/FloatLemmas.v
theories/BucketerModel.v
theories/BucketerSpec.v
theories/BucketerProofs.v
theories/BucketerQ.v
theories/BucketerGeo.v
theories/BucketerEmit.v
theories/BucketerClose.v
theories/PropBucketer.v
theories/ReflectModel.v
theories/ListModel.v
theories/ListSpec.v
theories/ListProofs.v
theories/ListConc.v
theories/ListConcProofs.v
theories/PropList.v
theories/PropListConc.v
theories/ValueModel.v
theories/ValueSpec.v
theories/ValueProofs.v
theories/PropValue.v
theories/RegionReads.v
theories/PropRegionReads.v
theories/FormatModel.v
theories/FormatSpec.v
theories/FormatValueSpec.v
theories/FormatProofs.v
theories/FormatFloat.v
theories/FormatThms.v
theories/PropFormat.v
theories/FloatConvModel.v
theories/FloatConvSpec.v
theories/FloatConvProofs.v
theories/FloatConvTime.v
theories/FloatConvNear.v
theories/PropFloatConv.v
theories/HealthModel.v
theories/HealthSpec.v
theories/HealthProofs.v
theories/PropHealth.v
theories/DistMsgModel.v
theories/HttpModel.v
theories/HttpSpec.v
theories/HttpWitness.v
theories/HttpProofs.v
theories/HttpText.v
theories/PropHttp.v
theories/UrlModel.v
theories/UrlSpec.v
theories/UrlProofs.v
theories/HtmlModel.v
theories/HtmlSpec.v
theories/HtmlProofs.v
theories/PropHtml.v
theories/WireModel.v
theories/WireSpec.v
theories/WireProofs.v
theories/PropWire.v
theories/SetupModel.v
theories/SetupSpec.v
theories/SetupProofs.v
theories/PropSetup.v
theories/StampSpec.v
theories/StampProofs.v
theories/StampRegion.v
theories/PropStamp.v
theories/DurDistFloat.v
theories/DurDistSpec.v
theories/DurDistProofs.v
theories/PropDurDist.v
theories/DistTextSpec.v
theories/DistTextProofs.v
theories/PropDistText.v
theories/PropDistKind.v
theories/EndPointSpec.v
theories/EndPointProofs.v
theories/PropEndPoint.v
theories/MedianSpec.v
theories/MedianProofs.v
theories/PropMedian.v
theories/AverageSpec.v
theories/AverageProofs.v
theories/PropAverage.v
theories/ApiUrlModel.v
theories/ApiUrlSpec.v
theories/ApiUrlProofs.v
theories/PropApiUrl.v
theories/PrettySpec.v
theories/PrettyProofs.v
theories/PropPretty.v
theories/AlikeSpec.v
theories/AlikeProofs.v
theories/PropAlike.v
theories/TextAlikeSpec.v
theories/TextAlikeProofs.v
theories/PropTextAlike.v
