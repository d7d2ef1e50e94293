-Q theories Verif
theories/Base.v
theories/NumModel.v
theories/NumLemmas.v
theories/BinModel.v
theories/BinSpec.v
theories/BinProofs.v
theories/ApplyProofs.v
theories/BinProps.v
theories/CountModel.v
theories/CountSpec.v
theories/CountProofs.v
theories/CountProofs2.v
theories/CountProofs3.v
theories/CountProps.v
theories/InterpProofs.v
theories/ChronModel.v
theories/ChronSpec.v
theories/ChronProofs.v
theories/ChronProps.v
theories/PdfModel.v
theories/PdfSpec.v
theories/PdfProofs.v
theories/PdfProps.v
theories/ProdModel.v
theories/ProdSpec.v
theories/ProdProofs.v
theories/ProdProofs2.v
theories/ProdProofs3.v
theories/ProdProps.v
theories/StrModel.v
theories/StrSpec.v
theories/StrProofs.v
theories/StrProofs2.v
theories/StrProps.v
theories/FmtModel.v
theories/FmtSpec.v
theories/FmtProofs.v
theories/FmtProps.v
theories/CliModel.v
theories/CliSpec.v
theories/CliProofs.v
theories/CliProofs2.v
theories/CliProofs3.v
theories/CliProps.v
theories/CliProps2.v
theories/TsModel.v
theories/TsSpec.v
theories/TsProofs.v
theories/TsProofs2.v
theories/TsProofs3.v
theories/TsProofs4.v
theories/TsProofs5.v
theories/TsProps.v
theories/IoModel.v
theories/IoSpec.v
theories/IoProofs.v
theories/IoProofs2.v
theories/IoProofs3.v
theories/IoProofs4.v
theories/IoProps.v
theories/SccModel.v
theories/SccSpec.v
theories/SccProofs.v
theories/SccProofs2.v
theories/SccProofs3.v
theories/SccProofs4.v
theories/SccProofs5.v
theories/SccProps.v
theories/PlotModel.v
theories/PlotSpec.v
theories/PlotProofs.v
theories/PlotProofs2.v
theories/PlotProps.v
theories/RaModel.v
theories/RaSpec.v
theories/RaProofs.v
theories/RaProofs2.v
theories/RaProofs3.v
theories/RaProofs4.v
theories/RaProps.v
theories/RaFileModel.v
theories/RaFileSpec.v
theories/RaFileProofs.v
theories/RaFileProps.v
theories/SetModel.v
theories/SetSpec.v
theories/SetProofs.v
theories/SetProps.v
theories/SetProps2.v
theories/SetProps3.v
theories/LegModel.v
theories/LegSpec.v
theories/LegProofs.v
theories/LegProps.v
theories/LegProofs2.v
theories/LegProps2.v
theories/AgeModel.v
theories/AgeSpec.v
theories/AgeProofs.v
theories/AgeProofs2.v
theories/AgeProps.v
theories/EpModel.v
theories/EpSpec.v
theories/EpProofs.v
theories/EpProps.v
theories/AaModel.v
theories/AaSpec.v
theories/AaProofs.v
theories/AaProofs2.v
theories/AaProps.v
theories/FlModel.v
theories/FlProps.v
theories/MapModel.v
theories/MapSpec.v
theories/MapProofs.v
theories/MapProps.v
theories/MainModel.v
theories/MainProofs.v
theories/MainProps.v
theories/LoadModel.v
theories/LoadSpec.v
theories/LoadProofs.v
theories/LoadProps.v
theories/StripModel.v
theories/StripSpec.v
theories/StripProofs.v
theories/StripProps.v
theories/MiniModel.v
theories/MiniSpec.v
theories/MiniProofs.v
theories/MiniProofs2.v
theories/MiniProps.v
theories/ShpModel.v
theories/ShpSpec.v
theories/ShpProofs.v
theories/ShpProps.v
theories/DenModel.v
theories/DenSpec.v
theories/DenProps.v
theories/OverModel.v
theories/OverSpec.v
theories/OverProps.v
theories/SeqModel.v
theories/SeqSpec.v
theories/SeqProps.v
theories/EpoModel.v
theories/EpoProps.v
theories/LabModel.v
theories/LabProps.v
theories/SettModel.v
theories/SettSpec.v
theories/SettProps.v
theories/SettProps2.v
theories/DiagModel.v
theories/DiagSpec.v
theories/DiagProps.v
theories/HistModel.v
theories/HistSpec.v
theories/HistProps.v
theories/BtabModel.v
theories/BtabProps.v
theories/ChartModel.v
theories/ChartProps.v
theories/PanelModel.v
theories/PanelProps.v
theories/BatchModel.v
theories/BatchProps.v
theories/PageModel.v
theories/PageProps.v
theories/PageProps2.v
theories/DrawModel.v
theories/DrawProps.v
theories/EpcModel.v
theories/EpcProps.v
theories/EndModel.v
theories/EndSpec.v
theories/EndProofs.v
theories/EndProps.v
theories/AdjModel.v
theories/AdjSpec.v
theories/AdjProofs.v
theories/AdjProps.v
theories/AdjProps2.v
theories/MonoProofs.v
theories/MonoProps.v
theories/UsualProps.v
theories/PoisSpec.v
theories/PoisProofs.v
theories/PoisProps.v
theories/InstModel.v
theories/InstProps.v
theories/DfitSpec.v
theories/DfitProofs.v
theories/DfitProps.v
theories/ListModel.v
theories/ListProps.v
theories/ResSpec.v
theories/ResProofs.v
theories/ResProps.v
theories/ResProps2.v
