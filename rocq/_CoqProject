-Q theories Verif
theories/Base.v
theories/Str.v
theories/RingbufModel.v
theories/RingbufSpec.v
theories/RingbufProof.v
theories/RingbufThm.v
theories/TtlModel.v
theories/TtlSpec.v
theories/TtlProof.v
theories/TtlThm.v
theories/PortModel.v
theories/PortSpec.v
theories/PortProof.v
theories/PortThm.v
theories/GenuidModel.v
theories/GenuidThm.v
theories/RtpModel.v
theories/RtpSpec.v
theories/RtpProof.v
theories/RtpThm.v
theories/SbufModel.v
theories/SbufSpec.v
theories/SbufProof.v
theories/SbufThm.v
theories/PcountModel.v
theories/PcountSpec.v
theories/PcountProof.v
theories/PcountThm.v
theories/HashModel.v
theories/HashSpec.v
theories/HashProof.v
theories/HashThm.v
theories/WeakrefModel.v
theories/WeakrefSpec.v
theories/WeakrefProof.v
theories/WeakrefThm.v
theories/RefcntModel.v
theories/RefcntSpec.v
theories/RefcntProof.v
theories/RefcntThm.v
theories/WrefModel.v
theories/WrefSpec.v
theories/WrefProof.v
theories/WrefThm.v
theories/NumModel.v
theories/NumSpec.v
theories/NumProof.v
theories/NumThm.v
theories/QuoteModel.v
theories/QuoteSpec.v
theories/QuoteProof.v
theories/QuoteThm.v
theories/SplitModel.v
theories/SplitSpec.v
theories/SplitProof.v
theories/SplitThm.v
theories/StrSpec.v
theories/StrProof.v
theories/ReplyModel.v
theories/ReplySpec.v
theories/ReplyProof.v
theories/ReplyThm.v
theories/ParseModel.v
theories/ParseSpec.v
theories/ParseProof.v
theories/ParseThm.v
theories/CstreamModel.v
theories/CstreamSpec.v
theories/CstreamProof.v
theories/CstreamThm.v
theories/CtlpollModel.v
theories/CtlpollSpec.v
theories/CtlpollProof.v
theories/CtlpollThm.v
theories/RcacheModel.v
theories/RcacheSpec.v
theories/RcacheProof.v
theories/RcacheThm.v
theories/SessModel.v
theories/SessSpec.v
theories/SessProof.v
theories/SessThm.v
theories/QueueModel.v
theories/QueueSpec.v
theories/QueueProof.v
theories/QueueThm.v
theories/TimedModel.v
theories/TimedSpec.v
theories/TimedProof.v
theories/TimedThm.v
theories/AnaModel.v
theories/AnaSpec.v
theories/AnaProof.v
theories/AnaThm.v
theories/RszModel.v
theories/RszSpec.v
theories/RszProof.v
theories/RszProof2.v
theories/RszProof3.v
theories/RszThm.v
theories/NetioModel.v
theories/NetioSpec.v
theories/NetioProof.v
theories/NetioThm.v
theories/WakeModel.v
theories/WakeSpec.v
theories/WakeProof.v
theories/WakeThm.v
theories/TimeModel.v
theories/TimeSpec.v
theories/TimeProof.v
theories/TimeThm.v
theories/FiltModel.v
theories/FiltSpec.v
theories/FiltProof.v
theories/FiltThm.v
theories/CksumModel.v
theories/CksumSpec.v
theories/CksumProof.v
theories/CksumThm.v
theories/RecModel.v
theories/RecSpec.v
theories/RecProof.v
theories/RecThm.v
theories/RwlModel.v
theories/RwlSpec.v
theories/RwlProof.v
theories/RwlThm.v
theories/PprocModel.v
theories/PprocSpec.v
theories/PprocProof.v
theories/PprocProof2.v
theories/PprocThm.v
theories/StatsModel.v
theories/StatsSpec.v
theories/StatsProof.v
theories/StatsThm.v
theories/AddrModel.v
theories/BindModel.v
theories/BindSpec.v
theories/BindProof.v
theories/BindThm.v
theories/TnotModel.v
theories/TnotSpec.v
theories/TnotProof.v
theories/TnotThm.v
theories/LatchModel.v
theories/LatchSpec.v
theories/LatchProof.v
theories/LatchThm.v
theories/SrvModel.v
theories/SrvSpec.v
theories/SrvProof.v
theories/SrvThm.v
theories/PollModel.v
theories/PollSpec.v
theories/PollProof.v
theories/PollThm.v
theories/RrcModel.v
theories/RrcSpec.v
theories/RrcProof.v
theories/RrcThm.v
theories/ForkModel.v
theories/ForkSpec.v
theories/ForkProof.v
theories/ForkThm.v
theories/PlrModel.v
theories/PlrSpec.v
theories/PlrProof.v
theories/PlrThm.v
theories/RelayModel.v
theories/RelaySpec.v
theories/RelayProof.v
theories/RelayThm.v
theories/OptsModel.v
theories/OptsSpec.v
theories/OptsProof.v
theories/OptsThm.v
theories/RtcpModel.v
theories/RtcpSpec.v
theories/RtcpProof.v
theories/RtcpThm.v
theories/NotfModel.v
theories/NotfSpec.v
theories/NotfProof.v
theories/NotfThm.v
theories/DtmfModel.v
theories/DtmfSpec.v
theories/DtmfProof.v
theories/DtmfThm.v
theories/LoadModel.v
theories/LoadSpec.v
theories/LoadProof.v
theories/LoadThm.v
theories/ConfModel.v
theories/ConfSpec.v
theories/ConfProof.v
theories/ConfThm.v
theories/SpmcModel.v
theories/SpmcSpec.v
theories/SpmcProof.v
theories/SpmcThm.v
theories/PportModel.v
theories/PportSpec.v
theories/PportProof.v
theories/PportThm.v
theories/ChainModel.v
theories/ChainSpec.v
theories/ChainProof.v
theories/ChainThm.v
theories/StunModel.v
theories/StunSpec.v
theories/StunProof.v
theories/StunThm.v
theories/IceModel.v
theories/IceSpec.v
theories/IceProof.v
theories/IceThm.v
theories/DtlsModel.v
theories/DtlsSpec.v
theories/DtlsProof.v
theories/DtlsThm.v
theories/EaudModel.v
theories/EaudSpec.v
theories/EaudProof.v
theories/EaudProof2.v
theories/EaudThm.v
theories/CsvModel.v
theories/CsvSpec.v
theories/CsvProof.v
theories/CsvProof2.v
theories/CsvProof3.v
theories/CsvProof4.v
theories/CsvProof5.v
theories/CsvThm.v
theories/MifModel.v
theories/MifSpec.v
theories/MifProof.v
theories/MifProof2.v
theories/MifProof3.v
theories/MifThm.v
theories/EcryModel.v
theories/EcrySpec.v
theories/EcryProof.v
theories/EcryThm.v
theories/MannModel.v
theories/MannSpec.v
theories/MannProof.v
theories/MannProof2.v
theories/MannThm.v
theories/CtlModel.v
theories/CtlSpec.v
theories/CtlProof.v
theories/CtlThm.v
theories/RcvfModel.v
theories/RcvfSpec.v
theories/RcvfProof.v
theories/RcvfThm.v
theories/SyslModel.v
theories/SyslSpec.v
theories/SyslProof.v
theories/SyslThm.v
theories/TickModel.v
theories/TickSpec.v
theories/TickProof.v
theories/TickThm.v
theories/MallModel.v
theories/MallSpec.v
theories/MallProof.v
theories/MallThm.v
