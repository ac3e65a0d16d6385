-Q theories Verif
theories/Base.v
theories/CodecModel.v
theories/CodecSpec.v
theories/CodecProofs.v
theories/CodecProps.v
theories/DupsetModel.v
theories/DupsetSpec.v
theories/DupsetProofs.v
theories/DupsetProps.v
theories/BitsModel.v
theories/BitsSpec.v
theories/BitsProofs.v
theories/BitsProps.v
theories/StrBase.v
theories/BufLemmas.v
theories/NetaddrModel.v
theories/NetaddrSpec.v
theories/NetaddrProofs.v
theories/NetaddrTextProofs.v
theories/CompModel.v
theories/CompProofs.v
theories/NetaddrProps.v
theories/ListModel.v
theories/ListSpec.v
theories/ListProofs.v
theories/ListProps.v
theories/AvlModel.v
theories/AvlSpec.v
theories/AvlTreeProofs.v
theories/AvlRebalProofs.v
theories/AvlProofs.v
theories/AvlProps.v
theories/TimerModel.v
theories/TimerSpec.v
theories/TimerProofs.v
theories/TimerProps.v
theories/ClassModel.v
theories/ClassSpec.v
theories/ClassProofs.v
theories/ClassProps.v
theories/ReaderModel.v
theories/ReadDispModel.v
theories/ReaderSpec.v
theories/ReaderProofs.v
theories/ReadDispProofs.v
theories/ReadTlvProofs.v
theories/ReadMsgProofs.v
theories/ReaderProps.v
theories/SplitLemmas.v
theories/StringModel.v
theories/StringSpec.v
theories/StringProofs.v
theories/StringArrProofs.v
theories/StringProps.v
theories/AutobufModel.v
theories/AutobufSpec.v
theories/AutobufProofs.v
theories/AutobufProps.v
theories/TemplateModel.v
theories/TemplateSpec.v
theories/TemplateProofs.v
theories/TemplateProps.v
theories/JsonModel.v
theories/JsonSpec.v
theories/JsonProofs.v
theories/JsonProps.v
theories/IsoModel.v
theories/IsoSpec.v
theories/IsoProofs.v
theories/IsoProps.v
theories/WireSpec.v
theories/WireParse.v
theories/WireDispatch.v
theories/WireReadProofs.v
theories/WireComplete.v
theories/WireReadProps.v
theories/ReadDropSpec.v
theories/ReadDropProofs.v
theories/ReadDropProps.v
theories/DijkstraModel.v
theories/DijkstraSpec.v
theories/DijkstraProofs.v
theories/DijkstraOpt.v
theories/DijkstraTable.v
theories/DijkstraNear.v
theories/DijkstraProps.v
theories/RouteModel.v
theories/RouteSpec.v
theories/RouteProofs.v
theories/RouteProps.v
theories/MprModel.v
theories/MprSpec.v
theories/MprProofs.v
theories/MprCover.v
theories/MprProps.v
theories/WriterModel.v
theories/WriterSpec.v
theories/WriterProofs.v
theories/WriterSession.v
theories/WriterProps.v
theories/GenModel.v
theories/GenSpec.v
theories/GenLoop.v
theories/GenTerm.v
theories/GenTlv.v
theories/GenBlock.v
theories/GenChain.v
theories/GenRead.v
theories/GenProps.v
theories/CfgModel.v
theories/CfgSpec.v
theories/CfgTree.v
theories/CfgProofs.v
theories/CfgCopy.v
theories/CfgProps.v
theories/CompactModel.v
theories/CompactSpec.v
theories/CompactProofs.v
theories/CompactRound.v
theories/CompactProps.v
theories/NhdpModel.v
theories/NhdpSpec.v
theories/NhdpProofs.v
theories/NhdpHello.v
theories/NhdpCounts.v
theories/NhdpPost.v
theories/NhdpProps.v
theories/NhdpPostProps.v
theories/DomModel.v
theories/DomSpec.v
theories/DomProofs.v
theories/DomMetric.v
theories/DomLink.v
theories/DomProps.v
theories/DomRegModel.v
theories/DomRegSpec.v
theories/DomRegProofs.v
theories/DomRegProps.v
theories/TcModel.v
theories/TcSpec.v
theories/TcProofs.v
theories/TcInv.v
theories/TcCheck.v
theories/TcProps.v
theories/DlepModel.v
theories/DlepSpec.v
theories/DlepProofs.v
theories/DlepProofs2.v
theories/DlepProofs3.v
theories/DlepProofs4.v
theories/DlepProps.v
theories/L2DataModel.v
theories/L2DataSpec.v
theories/L2DataProofs.v
theories/L2KeyProofs.v
theories/L2DataProps.v
theories/L2DbModel.v
theories/L2DbSpec.v
theories/L2DbProofs.v
theories/L2DbProofs2.v
theories/L2DbProofs3.v
theories/L2DbProofs4.v
theories/L2DbProofs5.v
theories/L2DbProps.v
theories/SchemaModel.v
theories/SchemaSpec.v
theories/SchemaProofs.v
theories/SchemaProofs2.v
theories/SchemaProofs3.v
theories/SchemaProps.v
theories/CfgValModel.v
theories/CfgValSpec.v
theories/CfgValProofs.v
theories/CfgValProps.v
theories/HttpModel.v
theories/HttpSpec.v
theories/HttpProofs.v
theories/HttpProofs2.v
theories/HttpProofs3.v
theories/HttpProofs4.v
theories/HttpProofs5.v
theories/HttpProps.v
theories/SigModel.v
theories/SigSpec.v
theories/SigProofs.v
theories/SigProofs2.v
theories/SigProofs3.v
theories/SigProofs4.v
theories/SigProps.v
theories/SigRegModel.v
theories/SigRegProps.v
theories/SiseModel.v
theories/SiseProps.v
theories/FloodModel.v
theories/FloodProps.v
theories/OrigModel.v
theories/OrigProps.v
theories/TcwModel.v
theories/TcwProps.v
theories/SubsModel.v
theories/SubsProofs.v
theories/SubsProps.v
theories/HystModel.v
theories/HystProps.v
theories/DatModel.v
theories/DatProofs.v
theories/DatProps.v
theories/PktModel.v
theories/PktProps.v
theories/StrmModel.v
theories/StrmProps.v
theories/Ll4Model.v
theories/Ll4Props.v
theories/ProbeModel.v
theories/ProbeProps.v
theories/CmetModel.v
theories/CmetProps.v
theories/HwModel.v
theories/HwSpec.v
theories/HwProofs.v
theories/HwProps.v
theories/FldModel.v
theories/FldProps.v
theories/R5Model.v
theories/R5Spec.v
theories/R5Props.v
theories/R5RefProps.v
theories/RmodModel.v
theories/RmodSpec.v
theories/RmodProps.v
theories/LimpModel.v
theories/LimpSpec.v
theories/LimpProps.v
theories/OlanModel.v
theories/OlanSpec.v
theories/OlanProps.v
theories/LinkcfgModel.v
theories/LinkcfgSpec.v
theories/LinkcfgProps.v
theories/NchkModel.v
theories/NchkSpec.v
theories/NchkProps.v
theories/L2impModel.v
theories/L2impSpec.v
theories/L2impProps.v
