-Q theories Verif
theories/Prelude.v
theories/PreludeFacts.v
theories/PricingModel.v
theories/PricingSpec.v
theories/PricingProofs.v
theories/PricingProperties.v
theories/StoreModel.v
theories/StoreSpec.v
theories/StoreProofs.v
theories/StoreProperties.v
theories/SpendModel.v
theories/SpendSpec.v
theories/SpendProofs.v
theories/SpendProperties.v
theories/BytesModel.v
theories/BytesProofs.v
theories/PassModel.v
theories/ContainerModel.v
theories/ContainerProofs.v
theories/TahoeModel.v
theories/ServerModel.v
theories/ServerSpec.v
theories/ServerProofs.v
theories/ServerStateProofs.v
theories/ServerRequestProofs.v
theories/ClientModel.v
theories/ClientProofs.v
theories/ServerProperties.v
theories/ClientProperties.v
theories/PassProperties.v
theories/ControllerModel.v
theories/ControllerSpec.v
theories/ControllerProofs.v
theories/ControllerRunProofs.v
theories/ControllerProperties.v
theories/ReplicaModel.v
theories/ReplicaSpec.v
theories/ReplicaProofs.v
theories/ReplicaRunProofs.v
theories/ReplicaLogProofs.v
theories/ReplicaStore.v
theories/ReplicaProperties.v
theories/CborModel.v
theories/CborProofs.v
theories/StreamModel.v
theories/StreamSpec.v
theories/StreamProofs.v
theories/StreamProperties.v
theories/RecoverModel.v
theories/RecoverSpec.v
theories/RecoverProofs.v
theories/RecoverProperties.v
theories/LeaseModel.v
theories/LeaseSpec.v
theories/LeaseProofs.v
theories/LeaseServer.v
theories/LeaseServerProofs.v
theories/LeaseTimerProofs.v
theories/LeaseStoreProofs.v
theories/LeaseProperties.v
theories/DateModel.v
theories/DateProofs.v
theories/JsonModel.v
theories/JsonProofs.v
theories/VoucherModel.v
theories/VoucherSpec.v
theories/VoucherProofs.v
theories/VoucherProperties.v
theories/HttpModel.v
theories/HttpSpec.v
theories/HttpProofs.v
theories/HttpProperties.v
theories/SchemaModel.v
theories/SchemaSpec.v
theories/SchemaProofs.v
theories/SchemaRowProofs.v
theories/SchemaProperties.v
theories/GridModel.v
theories/GridSpec.v
theories/GridProofs.v
theories/GridProperties.v
theories/RedeemModel.v
theories/RedeemSpec.v
theories/RedeemProofs.v
theories/RedeemProperties.v
theories/PolicyModel.v
theories/PolicySpec.v
theories/PolicyProofs.v
theories/PolicyProperties.v
theories/MetricModel.v
theories/MetricSpec.v
theories/MetricProofs.v
theories/MetricProperties.v
theories/ProtocolModel.v
theories/ProtocolSpec.v
theories/ProtocolProofs.v
theories/ProtocolProperties.v
theories/PluginModel.v
theories/PluginSpec.v
theories/PluginProofs.v
theories/PluginProperties.v
theories/EnoughSpec.v
theories/EnoughProofs.v
theories/EnoughProperties.v
theories/OutcomeSpec.v
theories/OutcomeProperties.v
theories/ConfigModel.v
theories/ConfigSpec.v
theories/ConfigProofs.v
theories/ConfigProperties.v
theories/MixedModel.v
theories/MixedProofs.v
theories/MixedProperties.v
theories/WireModel.v
theories/WireSpec.v
theories/WireProofs.v
theories/WireProperties.v
theories/ConcurrentModel.v
theories/ConcurrentSpec.v
theories/ConcurrentProofs.v
theories/ConcurrentProperties.v
theories/AnswerProperties.v
theories/WebModel.v
theories/WebSpec.v
theories/WebProofs.v
theories/WebProperties.v
theories/RegainSpec.v
theories/RegainProofs.v
theories/RegainProperties.v
theories/ConfTextModel.v
theories/ConfTextSpec.v
theories/ConfTextProofs.v
theories/ConfTextProperties.v
theories/StackModel.v
theories/StackSpec.v
theories/StackProofs.v
theories/StackProperties.v
theories/PaidSpec.v
theories/PaidProofs.v
theories/PaidProperties.v
theories/BoughtSpec.v
theories/BoughtProofs.v
theories/BoughtProperties.v
theories/UpkeepModel.v
theories/UpkeepSpec.v
theories/UpkeepProofs.v
theories/UpkeepProperties.v
theories/PaidForSpec.v
theories/PaidForProofs.v
theories/PaidForProperties.v
theories/KeptProofs.v
theories/KeptProperties.v
theories/ConnModel.v
theories/ConnSpec.v
theories/ConnProofs.v
theories/ConnProperties.v
theories/WholeProperties.v
theories/UploadModel.v
theories/UploadSpec.v
theories/UploadProofs.v
theories/UploadProperties.v
theories/LifeProperties.v
theories/JsonSpec.v
theories/JsonTextProofs.v
theories/JsonTextProperties.v
theories/LogModel.v
theories/LogSpec.v
theories/LogProofs.v
theories/LogProperties.v
theories/ServerLogModel.v
theories/ServerLogSpec.v
theories/ServerLogProofs.v
theories/ServerLogProperties.v
theories/RedeemLogModel.v
theories/RedeemLogSpec.v
theories/RedeemLogProofs.v
theories/RedeemLogProperties.v
theories/RedeemTellSpec.v
theories/RedeemTellProofs.v
theories/RedeemTellProperties.v
theories/RestSpec.v
theories/RestProofs.v
theories/RestProperties.v
theories/RetrySpec.v
theories/RetryProofs.v
theories/RetryProperties.v
theories/BehindProperties.v
theories/LossModel.v
theories/LossSpec.v
theories/LossProofs.v
theories/LossProperties.v
theories/PurseSpec.v
theories/PurseProperties.v
theories/WorthSpec.v
theories/WorthProofs.v
theories/WorthProperties.v
theories/OutliveSpec.v
theories/OutliveProperties.v
theories/KeysSpec.v
theories/KeysProperties.v
theories/KeptKeysProperties.v
theories/WorthKeptSpec.v
theories/WorthKeptProperties.v
theories/KeysGivenProperties.v
theories/KeptWorthProperties.v
