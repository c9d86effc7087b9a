-Q theories Verif
theories/ActorModel.v
theories/ActorProofs.v
theories/ActorProperties.v
theories/AfairProofs.v
theories/AfairProperties.v
theories/AfairSpec.v
theories/AffProofs.v
theories/AffProperties.v
theories/AffSpec.v
theories/AlgProofs.v
theories/AlgProperties.v
theories/AonceProofs.v
theories/AonceProperties.v
theories/AonceSpec.v
theories/ArayModel.v
theories/ArayProofs.v
theories/ArayProperties.v
theories/AraySpec.v
theories/AresrModel.v
theories/AresrProofs.v
theories/AresrProperties.v
theories/AresrSpec.v
theories/AsyncModel.v
theories/AsyncProofs.v
theories/AsyncProperties.v
theories/AsyncRunProofs.v
theories/AsyncSpec.v
theories/AsyncVenvProofs.v
theories/AttrModel.v
theories/AttrProofs.v
theories/AttrProperties.v
theories/AttrSpec.v
theories/BatchCatProofs.v
theories/BatchCatProperties.v
theories/BatchMainProofs.v
theories/BatchMainProperties.v
theories/BatchModel.v
theories/BatchOpsModel.v
theories/BatchOpsProofs.v
theories/BatchOpsProperties.v
theories/BatchOpsSpec.v
theories/BatchProofs.v
theories/BatchProperties.v
theories/BatchSpec.v
theories/BatchStackProofs.v
theories/BatchStackProperties.v
theories/BatlawProofs.v
theories/BatlawProperties.v
theories/BatlawSpec.v
theories/BufferMainProofs.v
theories/BufferMainProperties.v
theories/BufferModel.v
theories/BufferProofs.v
theories/BufferSpec.v
theories/BufferWalkProofs.v
theories/CachedMainProofs.v
theories/CachedMainProperties.v
theories/CachedModel.v
theories/CachedProofs.v
theories/CachedSpec.v
theories/CbkModel.v
theories/CbkProofs.v
theories/CbkProperties.v
theories/CbkSpec.v
theories/CollectEpisodeProofs.v
theories/CollectModel.v
theories/CollectProofs.v
theories/CollectProperties.v
theories/CollectRoundProofs.v
theories/CollectRunProofs.v
theories/CollectSpec.v
theories/CompProofs.v
theories/CompProperties.v
theories/CompSpec.v
theories/ConvModel.v
theories/ConvProofs.v
theories/ConvProperties.v
theories/ConvSpec.v
theories/CrenProofs.v
theories/CrenProperties.v
theories/CrenSpec.v
theories/CtorModel.v
theories/CtorProofs.v
theories/CtorProperties.v
theories/CtorSpec.v
theories/DegProofs.v
theories/DegProperties.v
theories/DegSpec.v
theories/DistModel.v
theories/DistProofs.v
theories/DistProperties.v
theories/DistSpec.v
theories/DqnModel.v
theories/DqnProofs.v
theories/DqnProperties.v
theories/E2eModel.v
theories/E2eProofs.v
theories/E2eProperties.v
theories/E2eSpec.v
theories/EnvfModel.v
theories/EnvfProofs.v
theories/EnvfProperties.v
theories/EnvfSpec.v
theories/EvalLogProofs.v
theories/EvalLogProperties.v
theories/EvalModel.v
theories/EvalProofs.v
theories/EvalProperties.v
theories/EvalRestoreProofs.v
theories/EvalRestoreProperties.v
theories/EvalRunProofs.v
theories/EvalRunProperties.v
theories/EvalSpec.v
theories/ExperModel.v
theories/ExperProofs.v
theories/ExperProperties.v
theories/ExperSpec.v
theories/ExpnModel.v
theories/ExpnProofs.v
theories/ExpnProperties.v
theories/FactModel.v
theories/FactProofs.v
theories/FactProperties.v
theories/FactSpec.v
theories/FrameProofs.v
theories/FrameProperties.v
theories/FrameSpec.v
theories/FreshProofs.v
theories/FreshProperties.v
theories/FreshSpec.v
theories/FwdModel.v
theories/FwdProofs.v
theories/FwdProperties.v
theories/FwdSpec.v
theories/GetIndicesModel.v
theories/GetIndicesProofs.v
theories/GetIndicesProperties.v
theories/HdfModel.v
theories/HdfProofs.v
theories/HdfProperties.v
theories/HdfSpec.v
theories/HerMainProofs.v
theories/HerMainProperties.v
theories/HerModel.v
theories/HerProofs.v
theories/HerSpec.v
theories/HloadModel.v
theories/HloadProofs.v
theories/HloadProperties.v
theories/HmgrModel.v
theories/HmgrProofs.v
theories/HmgrProperties.v
theories/HmgrSpec.v
theories/HoneProofs.v
theories/HoneProperties.v
theories/HoneSpec.v
theories/IcmModel.v
theories/IcmProofs.v
theories/IcmProperties.v
theories/InvProofs.v
theories/InvProperties.v
theories/InvSpec.v
theories/IsoProofs.v
theories/IsoProperties.v
theories/IsoSpec.v
theories/LawsProofs.v
theories/LawsProperties.v
theories/LawsSpec.v
theories/LogModel.v
theories/LogProofs.v
theories/LogProperties.v
theories/MaModel.v
theories/MaProofs.v
theories/MaProperties.v
theories/MalawProofs.v
theories/MalawProperties.v
theories/ManagerMainProofs.v
theories/ManagerMainProperties.v
theories/ManagerModel.v
theories/ManagerProofs.v
theories/ManagerSpec.v
theories/ManagerWalkProofs.v
theories/ManoiseModel.v
theories/ManoiseProofs.v
theories/ManoiseProperties.v
theories/ManoiseSpec.v
theories/ManumProofs.v
theories/ManumProperties.v
theories/ModeModel.v
theories/ModeProofs.v
theories/ModeProperties.v
theories/ModeSpec.v
theories/MrgProofs.v
theories/MrgProperties.v
theories/MrgSpec.v
theories/NetModel.v
theories/NetProofs.v
theories/NetProperties.v
theories/NetSpec.v
theories/NeuProofs.v
theories/NeuProperties.v
theories/NeuSpec.v
theories/NpgModel.v
theories/NpgProofs.v
theories/NpgProperties.v
theories/NpgSpec.v
theories/Num.v
theories/OfflineModel.v
theories/OfflineProofs.v
theories/OfflineProperties.v
theories/OnecProofs.v
theories/OnecProperties.v
theories/OnecSpec.v
theories/OnpolModel.v
theories/OnpolProofs.v
theories/OnpolProperties.v
theories/OulimProofs.v
theories/OulimProperties.v
theories/OvlProofs.v
theories/OvlProperties.v
theories/ParamsModel.v
theories/ParamsOutcome.v
theories/ParamsProofs.v
theories/ParamsProperties.v
theories/ParamsSpec.v
theories/ParseModel.v
theories/ParseProofs.v
theories/ParseProperties.v
theories/ParseSpec.v
theories/PolicyModel.v
theories/PolicyProofs.v
theories/PolicyProperties.v
theories/PordProofs.v
theories/PordProperties.v
theories/PordSpec.v
theories/PotProofs.v
theories/PotProperties.v
theories/PotSpec.v
theories/PrioMainProofs.v
theories/PrioMainProperties.v
theories/PrioModel.v
theories/PrioProofs.v
theories/PrioSpec.v
theories/PsrlModel.v
theories/PsrlProofs.v
theories/PsrlProperties.v
theories/PsrlawProofs.v
theories/PsrlawProperties.v
theories/Py.v
theories/PyLemmas.v
theories/QuantModel.v
theories/QuantProofs.v
theories/QuantProperties.v
theories/RayModel.v
theories/RayProofs.v
theories/RayProperties.v
theories/RenProofs.v
theories/RenProperties.v
theories/RenSpec.v
theories/RenumProofs.v
theories/RenumProperties.v
theories/RenumSpec.v
theories/ReplModel.v
theories/ReplProofs.v
theories/ReplProperties.v
theories/RestrictModel.v
theories/RestrictProofs.v
theories/RestrictProperties.v
theories/ReturnsMainProofs.v
theories/ReturnsMainProperties.v
theories/ReturnsModel.v
theories/ReturnsProofs.v
theories/ReturnsProperties.v
theories/ReturnsSpec.v
theories/RliModel.v
theories/RliProofs.v
theories/RliProperties.v
theories/RliSpec.v
theories/RowProofs.v
theories/RowProperties.v
theories/RsmProofs.v
theories/RsmProperties.v
theories/RsmSpec.v
theories/SegTreeModel.v
theories/SegTreeProofs.v
theories/SegTreeProperties.v
theories/SegTreeSpec.v
theories/SepProofs.v
theories/SepProperties.v
theories/SepSpec.v
theories/SetupModel.v
theories/SetupProofs.v
theories/SetupProperties.v
theories/SetupSpec.v
theories/SmlModel.v
theories/SmlProofs.v
theories/SmlProperties.v
theories/SmlSpec.v
theories/SnapModel.v
theories/SnapProofs.v
theories/SnapProperties.v
theories/SnapSpec.v
theories/SpareProofs.v
theories/SpareProperties.v
theories/SpareSpec.v
theories/SpcProofs.v
theories/SpcProperties.v
theories/SpcSpec.v
theories/SplitModel.v
theories/SplitProofs.v
theories/SplitProperties.v
theories/SpprioProofs.v
theories/SpprioProperties.v
theories/StatModel.v
theories/StatProofs.v
theories/StatProperties.v
theories/StlawProofs.v
theories/StlawProperties.v
theories/StoreModel.v
theories/StoreProofs.v
theories/StoreProperties.v
theories/StoreSpec.v
theories/TatModel.v
theories/TatProofs.v
theories/TatProperties.v
theories/TatSpec.v
theories/TrainModel.v
theories/TrainProofs.v
theories/TrainProperties.v
theories/TrainSpec.v
theories/TreelawProofs.v
theories/TreelawProperties.v
theories/TrpoModel.v
theories/TrpoProofs.v
theories/TrpoProperties.v
theories/TstatModel.v
theories/TstatProofs.v
theories/TstatProperties.v
theories/TstatSpec.v
theories/VenlawProofs.v
theories/VenlawProperties.v
theories/VenvMainProofs.v
theories/VenvMainProperties.v
theories/VenvModel.v
theories/VenvProofs.v
theories/ViewModel.v
theories/ViewProofs.v
theories/ViewProperties.v
theories/ViewSpec.v
theories/WorkModel.v
theories/WorkProofs.v
theories/WorkProperties.v
theories/WorkSpec.v
theories/WrapModel.v
theories/WrapProofs.v
theories/WrapProperties.v
theories/WrpProofs.v
theories/WrpProperties.v
theories/WrpSpec.v
