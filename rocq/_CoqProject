-Q theories Verif
theories/Base.v
theories/SerialModel.v
theories/SerialSpec.v
theories/SerialProofs.v
theories/SerialProps.v
theories/DnameModel.v
theories/DnameSpec.v
theories/DnameProofs.v
theories/DnameProofs2.v
theories/DnameProofs3.v
theories/DnameProofs4.v
theories/DnameProps.v
theories/RdatasetModel.v
theories/RdatasetSpec.v
theories/RdatasetProofs.v
theories/RdatasetProps.v
theories/CodecModel.v
theories/CodecSpec.v
theories/CodecProofs.v
theories/CodecProofs2.v
theories/CodecProofs3.v
theories/CodecProofs4.v
theories/CodecProps.v
theories/HeapModel.v
theories/HeapSpec.v
theories/HeapProofs.v
theories/HeapProps.v
theories/WireModel.v
theories/WireProofs.v
theories/WireProps.v
theories/LmdbModel.v
theories/LmdbProofs.v
theories/LmdbProofs2.v
theories/LmdbProps.v
theories/TimersModel.v
theories/TimersProps.v
theories/SockaddrModel.v
theories/SockaddrProps.v
theories/UnreachModel.v
theories/UnreachProps.v
theories/ConnPoolModel.v
theories/ConnPoolProps.v
theories/BitmapModel.v
theories/BitmapProps.v
theories/EdnsModel.v
theories/EdnsProps.v
theories/EdnsProps2.v
theories/CookiesModel.v
theories/CookiesProps.v
theories/Proxyv2Model.v
theories/Proxyv2Props.v
theories/NodeModel.v
theories/NodeProps.v
theories/AclModel.v
theories/AclProps.v
theories/ZoneModel.v
theories/ZoneProofs.v
theories/ZoneView.v
theories/ZoneFold.v
theories/ChangesetProofs.v
theories/ZoneExamples.v
theories/MergeProofs.v
theories/ChangesetProps.v
theories/ZoneTree.v
theories/ZoneTreeProps.v
theories/UpdateModel.v
theories/UpdateProps.v
theories/DiffModel.v
theories/DiffProofs.v
theories/DiffProps.v
theories/BinodeModel.v
theories/BinodeProofs.v
theories/BinodeUnify.v
theories/BinodeProps.v
theories/ApplyProps.v
theories/DdnsModel.v
theories/DdnsProofs.v
theories/DdnsProps.v
theories/DdnsSteps.v
theories/DdnsAdd.v
theories/DdnsRun.v
theories/DdnsUpdateProps.v
theories/CtlModel.v
theories/CtlProofs.v
theories/CtlProps.v
theories/AnswerModel.v
theories/AnswerSpec.v
theories/AnswerSearch.v
theories/AnswerProofs.v
theories/AnswerProofs2.v
theories/AnswerProofs3.v
theories/AnswerFlags.v
theories/AnswerProps.v
theories/XfrModel.v
theories/XfrSpec.v
theories/XfrProofs.v
theories/XfrProofs2.v
theories/XfrProofs3.v
theories/XfrProofs4.v
theories/XfrProofs5.v
theories/XfrProps.v
theories/TrieModel.v
theories/TrieSpec.v
theories/TrieProofs.v
theories/TrieProofs2.v
theories/TrieProofs3.v
theories/TrieProofs4.v
theories/TrieProofs5.v
theories/TrieProofs6.v
theories/TrieProofs7.v
theories/TrieProps.v
theories/RrwireModel.v
theories/RrwireSpec.v
theories/RrwireProofs.v
theories/RrwireProofs2.v
theories/RrwireProofs3.v
theories/RrwireProps.v
theories/ComprModel.v
theories/ComprProofs.v
theories/ComprProofs2.v
theories/ComprProofs3.v
theories/ComprProofs4.v
theories/ComprSpec.v
theories/ComprProofs5.v
theories/ComprProofs6.v
theories/PutModel.v
theories/PutSpec.v
theories/PutProofs.v
theories/PutProofs2.v
theories/PutProofs3.v
theories/PutProofs4.v
theories/PutProofs5.v
theories/PutProps.v
theories/PktparseModel.v
theories/PktparseSpec.v
theories/PktparseProofs.v
theories/PktparseProofs2.v
theories/PktparseProofs3.v
theories/PktparseProps.v
theories/EventsModel.v
theories/EventsSpec.v
theories/EventsProps.v
theories/JserModel.v
theories/JserSpec.v
theories/JserProofs.v
theories/JserProofs2.v
theories/JserProofs3.v
theories/JserProofs4.v
theories/JserProps.v
theories/JournalModel.v
theories/JournalSpec.v
theories/JournalProofs.v
theories/JournalProofs2.v
theories/JournalProofs3.v
theories/JournalProofs4.v
theories/JournalProofs5.v
theories/JournalProofs6.v
theories/JournalProofs7.v
theories/JournalProofs8.v
theories/JournalProofs9.v
theories/JournalProofs10.v
theories/JournalProofs11.v
theories/JournalProps.v
theories/CatalogModel.v
theories/CatalogSpec.v
theories/CatalogProofs.v
theories/CatalogProofs2.v
theories/CatalogProofs3.v
theories/CatalogProps.v
theories/TsigModel.v
theories/TsigSpec.v
theories/TsigProofs.v
theories/TsigProofs2.v
theories/TsigProofs3.v
theories/TsigProofs4.v
theories/TsigProofs5.v
theories/TsigProofs6.v
theories/TsigProps.v
theories/TrafoModel.v
theories/TrafoSpec.v
theories/TrafoProofs.v
theories/TrafoProofs2.v
theories/TrafoProofs3.v
theories/TrafoProofs4.v
theories/TrafoProofs5.v
theories/TrafoProofs6.v
theories/TrafoProps.v
theories/TrafoProofs7.v
theories/NsecModel.v
theories/NsecSpec.v
theories/NsecProofs.v
theories/NsecProofs2.v
theories/NsecProofs3.v
theories/NsecProofs4.v
theories/NsecProofs5.v
theories/NsecProofs6.v
theories/NsecProps.v
theories/TrieCowModel.v
theories/TrieCowProofs.v
theories/TrieCowProofs2.v
theories/TrieCowProofs3.v
theories/TrieCowProofs4.v
theories/TrieCowProofs5.v
theories/TrieCowProofs6.v
theories/TrieCowProofs7.v
theories/TrieCowProps.v
theories/KeyModel.v
theories/KeySpec.v
theories/KeyProofs.v
theories/KeyProofs2.v
theories/KeyProofs3.v
theories/KeyProofs4.v
theories/KeyProofs5.v
theories/KeyProofs6.v
theories/KeyProofs7.v
theories/KeyProofs8.v
theories/KeyProofs9.v
theories/KeyProofs10.v
theories/KeyProps.v
theories/MsgSpec.v
theories/MsgProps.v
theories/SignModel.v
theories/SignSpec.v
theories/SignProofs.v
theories/SignProofs2.v
theories/SignProofs3.v
theories/SignProofs4.v
theories/SignProofs5.v
theories/SignProofs6.v
theories/SignProps.v
theories/TcpModel.v
theories/TcpSpec.v
theories/TcpProofs.v
theories/TcpProofs2.v
theories/TcpProps.v
theories/DerModel.v
theories/DerSpec.v
theories/DerProps.v
theories/KaspModel.v
theories/KaspSpec.v
theories/KaspProofs.v
theories/KaspProofs2.v
theories/KaspProofs3.v
theories/KaspProofs4.v
theories/KaspProps.v
theories/DenialSpec.v
theories/DenialModel.v
theories/DenialProofs.v
theories/DenialProofs2.v
theories/DenialProofs3.v
theories/DenialProofs4.v
theories/DenialProofs5.v
theories/DenialProps.v
theories/FdsetModel.v
theories/FdsetSpec.v
theories/FdsetProofs.v
theories/FdsetProofs2.v
theories/FdsetProofs3.v
theories/FdsetProofs4.v
theories/FdsetProps.v
theories/MeasureModel.v
theories/MeasureSpec.v
theories/MeasureProofs.v
theories/MeasureProps.v
theories/AddsModel.v
theories/AddsSpec.v
theories/AddsProofs.v
theories/AddsProofs2.v
theories/AddsProofs3.v
theories/AddsProps.v
theories/JsonModel.v
theories/JsonSpec.v
theories/JsonProofs.v
theories/JsonProofs2.v
theories/JsonProps.v
theories/QuicModel.v
theories/QuicSpec.v
theories/QuicProofs.v
theories/QuicProps.v
theories/ZonedbModel.v
theories/ZonedbSpec.v
theories/ZonedbProps.v
