-Q theories Verif

theories/Num.v
theories/Binary64Model.v
theories/Binary64Proofs.v
theories/Binary64Spec.v
theories/TimedModel.v
theories/TimedSpec.v
theories/TimedProofs.v
theories/TimedProps.v
theories/PQueueModel.v
theories/PQueueSpec.v
theories/PQueueProofs.v
theories/PQueueProofs2.v
theories/SchedEquivProofs.v
theories/PQueueProps.v
theories/DelayModel.v
theories/DelaySpec.v
theories/DelayProofs.v
theories/DelayProps.v
theories/LockstepModel.v
theories/LockstepSpec.v
theories/LockstepProofs.v
theories/LockstepProps.v
theories/PyDict.v
theories/RunModel.v
theories/RunSpec.v
theories/RunProofs.v
theories/RunProps.v
theories/SimModel.v
theories/SimSpec.v
theories/SimProofs.v
theories/SimProps.v
theories/LoadModel.v
theories/LoadSpec.v
theories/LoadProofs.v
theories/LoadProps.v
theories/AgentModel.v
theories/AgentSpec.v
theories/AgentProofs.v
theories/AgentProps.v
theories/FsmModel.v
theories/FsmSpec.v
theories/FsmProofs.v
theories/FsmProps.v
theories/SisaModel.v
theories/SisaSpec.v
theories/SisaProofs.v
theories/SisaProps.v
theories/EventModel.v
theories/EventSpec.v
theories/EventProofs.v
theories/EventProps.v
theories/QueryModel.v
theories/QuerySpec.v
theories/QueryProofs.v
theories/QueryProps.v
theories/NetModel.v
theories/NetSpec.v
theories/NetProofs.v
theories/NetProofs2.v
theories/NetProps.v
theories/FlatModel.v
theories/FlatSpec.v
theories/FlatProofs.v
theories/FlatProps.v
theories/SourceModel.v
theories/SourceSpec.v
theories/SourceProofs.v
theories/SourceProps.v
theories/DistModel.v
theories/DistSpec.v
theories/DistProofs.v
theories/DistProps.v
theories/TemplateModel.v
theories/TemplateSpec.v
theories/TemplateProofs.v
theories/TemplateProps.v
theories/ExportModel.v
theories/ExportSpec.v
theories/ExportProofs.v
theories/ExportProofs2.v
theories/ExportProps.v
theories/TimeoutsModel.v
theories/TimeoutsSpec.v
theories/TimeoutsProofs.v
theories/TimeoutsProps.v
theories/PubModel.v
theories/PubSpec.v
theories/PubProofs.v
theories/PubProps.v
theories/WealthModel.v
theories/WealthSpec.v
theories/WealthProofs.v
theories/WealthProps.v
theories/ReportModel.v
theories/ReportSpec.v
theories/ReportProofs.v
theories/ReportProps.v
theories/LogModel.v
theories/LogSpec.v
theories/LogProofs.v
theories/LogProps.v
theories/MappingModel.v
theories/MappingSpec.v
theories/MappingProofs.v
theories/MappingProps.v
theories/SerialModel.v
theories/SerialSpec.v
theories/SerialProofs.v
theories/SerialProps.v
theories/RegSpec.v
theories/RegProofs.v
theories/FailProofs.v
theories/RegProps.v
theories/SimFailSpec.v
theories/SimFailProofs.v
theories/SimFailProps.v
theories/CliSetModel.v
theories/CliSetSpec.v
theories/CliSetProofs.v
theories/CliSetProps.v
theories/OutdirSpec.v
theories/OutdirProofs.v
theories/OutdirProps.v
theories/FsmInitSpec.v
theories/FsmInitProofs.v
theories/FsmInitProps.v
theories/PlainProofs.v
theories/NewsModel.v
theories/NewsSpec.v
theories/NewsProofs.v
theories/NewsProps.v
theories/CounterModel.v
theories/CounterSpec.v
theories/CounterProofs.v
theories/CounterProps.v
theories/CascadeModel.v
theories/CascadeSpec.v
theories/CascadeProofs.v
theories/CascadeProps.v
theories/InvProofs.v
theories/RabbitModel.v
theories/RabbitSpec.v
theories/RabbitProofs.v
theories/RabbitProps.v
theories/FsmDieModel.v
theories/FsmDieProps.v
theories/PathModel.v
theories/PathSpec.v
theories/PathProofs.v
theories/PathProps.v
theories/ConfigModel.v
theories/ConfigSpec.v
theories/ConfigProofs.v
theories/ConfigProps.v
theories/FramesModel.v
theories/FramesProps.v
theories/InitModel.v
theories/InitProps.v
theories/Rabbit2Model.v
theories/Rabbit2Spec.v
theories/Rabbit2Proofs.v
theories/Rabbit2Props.v
theories/PatronModel.v
theories/PatronSpec.v
theories/PatronProofs.v
theories/PatronProps.v
theories/ConstructModel.v
theories/ConstructSpec.v
theories/ConstructProofs.v
theories/ConstructProps.v
theories/RefusedProps.v
theories/GeoModel.v
theories/GeoSpec.v
theories/GeoProofs.v
theories/GeoProps.v
theories/YieldProofs.v
theories/CarsModel.v
theories/CarsSpec.v
theories/CarsProofs.v
theories/CarsProps.v
theories/TerrorModel.v
theories/TerrorSpec.v
theories/TerrorProofs.v
theories/TerrorProps.v
theories/CityModel.v
theories/CitySpec.v
theories/CityProofs.v
theories/CityProps.v
theories/RoundProofs.v
theories/NoopModel.v
theories/NoopSpec.v
theories/NoopProofs.v
theories/NoopProps.v
theories/VirusModel.v
theories/VirusSpec.v
theories/VirusProofs.v
theories/VirusProps.v
theories/DemoModel.v
theories/DemoSpec.v
theories/DemoProofs.v
theories/DemoProps.v
theories/DebugModel.v
theories/DebugSpec.v
theories/DebugProofs.v
theories/DebugProps.v
theories/EasyModel.v
theories/EasyProofs.v
theories/EasyProps.v
theories/TestSuite.v
theories/TurnSpec.v
theories/TurnProofs.v
theories/TurnProps.v
theories/CustomModel.v
theories/CustomSpec.v
theories/CustomProofs.v
theories/CustomProps.v
theories/WebModel.v
theories/WebProofs.v
theories/WebProps.v
theories/GenModel.v
theories/GenSpec.v
theories/GenProofs.v
theories/GenProps.v
theories/SpecsModel.v
theories/SpecsSpec.v
theories/SpecsProofs.v
theories/SpecsProps.v
theories/VizModel.v
theories/VizProofs.v
theories/VizProps.v
theories/TurnPqSpec.v
theories/TurnPqProofs.v
theories/TurnPqProps.v
theories/MoneyModel.v
theories/MoneySpec.v
theories/MoneyProofs.v
theories/MoneyProps.v
theories/WebLogModel.v
theories/WebLogSpec.v
theories/WebLogProofs.v
theories/WebLogProps.v
theories/DfModel.v
theories/DfSpec.v
theories/DfProofs.v
theories/DfProps.v
theories/VirusMesaModel.v
theories/VirusMesaSpec.v
theories/VirusMesaProofs.v
theories/VirusMesaProps.v
theories/TraceProofs.v
theories/TutorModel.v
theories/TutorSpec.v
theories/TutorProofs.v
theories/TutorProps.v
theories/BroadcastModel.v
theories/BroadcastSpec.v
theories/BroadcastProofs.v
theories/ChanceProofs.v
theories/BroadcastProps.v
theories/GridModel.v
theories/GridSpec.v
theories/GridProofs.v
theories/GridProps.v
theories/PingModel.v
theories/PingSpec.v
theories/PingProofs.v
theories/PingProps.v
theories/OrderSpec.v
theories/OrderProofs.v
theories/AlternateProofs.v
theories/OrderProps.v
theories/StyleModel.v
theories/StyleSpec.v
theories/StyleProofs.v
theories/StyleProps.v
theories/PollModel.v
theories/PollSpec.v
theories/PollProofs.v
theories/PollProps.v
theories/CampaignModel.v
theories/CampaignSpec.v
theories/CampaignProofs.v
theories/CampaignProps.v
theories/TraceProps.v
theories/FsmAttrModel.v
theories/FsmAttrSpec.v
theories/FsmAttrProofs.v
theories/FsmAttrProps.v
theories/ConvertModel.v
theories/ConvertSpec.v
theories/ConvertProps.v
theories/RingSpec.v
theories/RingProofs.v
theories/RingProps.v
theories/WaitModel.v
theories/WaitSpec.v
theories/WaitProofs.v
theories/WaitProps.v
theories/FriendSpec.v
theories/FriendProps.v
theories/SquareProps.v
theories/DieProps.v
theories/FsmDefaultsProps.v
theories/ToggleModel.v
theories/ToggleSpec.v
theories/ToggleProofs.v
theories/ToggleProps.v
theories/ResumeModel.v
theories/ResumeSpec.v
theories/ResumeProofs.v
theories/ResumeProps.v
theories/DecorModel.v
theories/DecorSpec.v
theories/DecorProofs.v
theories/DecorProps.v
theories/NormalModel.v
theories/NormalSpec.v
theories/NormalProofs.v
theories/NormalProps.v
theories/HavenProps.v
theories/LeaveProps.v
