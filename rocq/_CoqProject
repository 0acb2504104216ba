-Q theories Verif
theories/Base.v
theories/BaseFacts.v
theories/TelemetryModel.v
theories/TelemetrySpec.v
theories/TelemetryProofs.v
theories/QExample.v
theories/TelemetryProps.v
theories/BucketsModel.v
theories/BucketsSpec.v
theories/BucketsProofs.v
theories/BucketsProps.v
theories/FlowModel.v
theories/FlowSpec.v
theories/FlowProofs.v
theories/FlowProps.v
theories/FiltersModel.v
theories/FiltersSpec.v
theories/FiltersProofs.v
theories/FiltersProps.v
theories/ParseModel.v
theories/ParseSpec.v
theories/ParseProofs.v
theories/ParseProps.v
theories/FramingModel.v
theories/FramingSpec.v
theories/FramingProofs.v
theories/FramingProps.v
theories/AvroModel.v
theories/AvroSpec.v
theories/AvroProofs.v
theories/AvroProps.v
theories/KafkaModel.v
theories/KafkaSpec.v
theories/KafkaProofs.v
theories/KafkaProps.v
theories/ElasticModel.v
theories/ElasticSpec.v
theories/ElasticProofs.v
theories/ElasticProps.v
theories/CacheModel.v
theories/CacheProofs.v
theories/CacheProps.v
theories/WavefrontModel.v
theories/WavefrontSpec.v
theories/WavefrontProofs.v
theories/WavefrontProps.v
theories/PrometheusModel.v
theories/PrometheusSpec.v
theories/PrometheusProofs.v
theories/PrometheusProps.v
theories/FloatFacts.v
theories/ProtoModel.v
theories/ProtoProofs.v
theories/NativeModel.v
theories/NativeSpec.v
theories/NativeProofs.v
theories/NativeProps.v
theories/TopologyModel.v
theories/TopologySpec.v
theories/TopologyProofs.v
theories/TopologyProps.v
theories/RuntimeModel.v
theories/RuntimeProps.v
theories/FileModel.v
theories/FileSpec.v
theories/FileProofs.v
theories/FileProps.v
theories/InfluxModel.v
theories/InfluxSpec.v
theories/InfluxProofs.v
theories/InfluxProps.v
theories/InternalModel.v
theories/InternalSpec.v
theories/InternalProofs.v
theories/InternalProps.v
theories/NetworkModel.v
theories/NetworkSpec.v
theories/NetworkProofs.v
theories/NetworkProps.v
theories/ClientSpec.v
theories/ClientProps.v
theories/Utf8.v
theories/GraphiteModel.v
theories/GraphiteSpec.v
theories/GraphiteProofs.v
theories/GraphiteProps.v
theories/PayloadModel.v
theories/PayloadSpec.v
theories/PayloadProofs.v
theories/PayloadProps.v
theories/ConfigModel.v
theories/ConfigSpec.v
theories/ConfigProofs.v
theories/ConfigProps.v
theories/ConsoleModel.v
theories/ConsoleSpec.v
theories/ConsoleProofs.v
theories/ConsoleProps.v
theories/AcceptModel.v
theories/AcceptSpec.v
theories/AcceptProofs.v
theories/AcceptProps.v
theories/DatagramModel.v
theories/DatagramSpec.v
theories/DatagramProofs.v
theories/DatagramProps.v
theories/ScriptSpec.v
theories/ScriptProps.v
theories/ScrapeModel.v
theories/ScrapeSpec.v
theories/ScrapeProofs.v
theories/ScrapeProps.v
theories/StreamModel.v
theories/StreamSpec.v
theories/StreamProofs.v
theories/StreamProps.v
theories/LiveSpec.v
theories/LiveProofs.v
theories/LiveProps.v
theories/FaultModel.v
theories/FaultSpec.v
theories/FaultProofs.v
theories/FaultProps.v
theories/MainModel.v
theories/MainSpec.v
theories/MainProofs.v
theories/MainProps.v
theories/PulseSpec.v
theories/PulseProofs.v
theories/PulseProps.v
theories/ShownSpec.v
theories/ShownProofs.v
theories/ShownProps.v
theories/SettingsSpec.v
theories/SettingsProps.v
theories/PublishModel.v
theories/PublishSpec.v
theories/PublishProofs.v
theories/PublishProps.v
theories/ArriveSpec.v
theories/ArriveProofs.v
theories/ArriveProps.v
theories/RelaySpec.v
theories/RelayProofs.v
theories/RelayProps.v
theories/WatchSpec.v
theories/WatchProofs.v
theories/WatchProps.v
theories/BinsSpec.v
theories/BinsProofs.v
theories/BinsProps.v
theories/ScrapedSpec.v
theories/ScrapedProofs.v
theories/ScrapedProps.v
theories/UnicodeSpec.v
theories/UnicodeProofs.v
theories/UnicodeProps.v
theories/BuilderSpec.v
theories/BuilderProofs.v
theories/BuilderProps.v
theories/PadCheckSpec.v
theories/PadCheckProofs.v
theories/PadCheckProps.v
theories/CollectSpec.v
theories/CollectProofs.v
theories/CollectProps.v
theories/ClockModel.v
theories/ClockSpec.v
theories/ClockProofs.v
theories/ClockProps.v
theories/CutSpec.v
theories/CutProofs.v
theories/CutProps.v
theories/HearSpec.v
theories/HearProofs.v
theories/HearProps.v
theories/NumberModel.v
theories/RoundSpec.v
theories/RoundProofs.v
theories/NumberSpec.v
theories/NumberProofs.v
theories/NumberProps.v
theories/ArithProofs.v
theories/CountSpec.v
theories/CountProps.v
theories/TextSpec.v
theories/TextProps.v
theories/SampleSpec.v
theories/SampleProofs.v
theories/SampleProps.v
theories/RiseSpec.v
theories/RiseProofs.v
theories/RiseProps.v
theories/SentProps.v
theories/ConserveSpec.v
theories/ConserveProofs.v
theories/ConserveProps.v
theories/WholeProps.v
theories/StatsdExitProps.v
theories/RecipSpec.v
theories/RecipProofs.v
theories/RecipProps.v
theories/LogModel.v
theories/LogProps.v
theories/InfluxExitProps.v
theories/GraphiteExitProps.v
theories/ShowModel.v
theories/ShowProps.v
