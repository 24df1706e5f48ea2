-Q theories Verif
theories/Base.v
theories/StorageModel.v
theories/StorageSpec.v
theories/StorageProofs.v
theories/StorageProofs2.v
theories/StorageProps.v
theories/StorageToolsModel.v
theories/StorageToolsSpec.v
theories/StorageToolsProofs.v
theories/StorageToolsProps.v
theories/PyStr.v
theories/RunModel.v
theories/RunSpec.v
theories/RunProofs.v
theories/RunProps.v
theories/FloatProps.v
theories/MpiModel.v
theories/MpiSpec.v
theories/MpiKahn.v
theories/MpiProofs.v
theories/MpiProps.v
theories/HistModel.v
theories/HistSpec.v
theories/HistProofs.v
theories/HistProps.v
theories/RotModel.v
theories/RotSpec.v
theories/RotProofs.v
theories/RotProps.v
theories/GeomModel.v
theories/GeomSpec.v
theories/GeomProofs.v
theories/GeomProps.v
theories/SimModel.v
theories/SimSpec.v
theories/SimProofs.v
theories/SimProps.v
theories/ProxyModel.v
theories/ProxySpec.v
theories/ProxyProofs.v
theories/ProxyProps.v
theories/RegModel.v
theories/RegSpec.v
theories/RegProofs.v
theories/RegProps.v
theories/CliModel.v
theories/CliSpec.v
theories/CliProofs.v
theories/CliProps.v
theories/DirModel.v
theories/DirSpec.v
theories/DirProofs.v
theories/DirProps.v
theories/DetModel.v
theories/DetSpec.v
theories/DetProofs.v
theories/DetProofs2.v
theories/DetProps.v
theories/ChanModel.v
theories/ChanSpec.v
theories/ChanProofs.v
theories/ChanProps.v
theories/MonModel.v
theories/MonSpec.v
theories/MonProofs.v
theories/MonProps.v
theories/HeadProps.v
theories/ShapeModel.v
theories/ShapeSpec.v
theories/ShapeProofs.v
theories/ShapeProofs2.v
theories/ShapeProofs3.v
theories/ShapeProps.v
theories/ScatModel.v
theories/ScatSpec.v
theories/ScatProofs.v
theories/ScatProofs2.v
theories/ScatProofs3.v
theories/ScatProofs4.v
theories/ScatProps.v
theories/KernModel.v
theories/KernSpec.v
theories/KernProofs.v
theories/KernProps.v
theories/UnitModel.v
theories/UnitSpec.v
theories/UnitProofs.v
theories/UnitProps.v
theories/KinModel.v
theories/KinSpec.v
theories/KinProofs.v
theories/KinProofs2.v
theories/KinProofs3.v
theories/KinProofs4.v
theories/KinProps.v
theories/GridModel.v
theories/GridSpec.v
theories/GridProofs.v
theories/GridProofs2.v
theories/GridProofs3.v
theories/GridProofs4.v
theories/GridProps.v
theories/PhonModel.v
theories/PhonSpec.v
theories/PhonProofs.v
theories/PhonProofs2.v
theories/PhonProofs3.v
theories/PhonProofs4.v
theories/PhonProofs5.v
theories/PhonProps.v
theories/MultiModel.v
theories/MultiSpec.v
theories/MultiProofs.v
theories/MultiProofs2.v
theories/MultiProofs3.v
theories/MultiProofs4.v
theories/MultiProofs5.v
theories/MultiProofs6.v
theories/MultiProps.v
theories/PowdModel.v
theories/PowdSpec.v
theories/PowdProofs.v
theories/PowdProofs2.v
theories/PowdProofs3.v
theories/PowdProofs4.v
theories/PowdProofs5.v
theories/PowdProofs6.v
theories/PowdProps.v
theories/XtalModel.v
theories/XtalSpec.v
theories/XtalProofs.v
theories/XtalProofs2.v
theories/XtalProofs3.v
theories/XtalProofs4.v
theories/XtalProofs5.v
theories/XtalProps.v
theories/IdfModel.v
theories/IdfSpec.v
theories/IdfProofs.v
theories/IdfProofs2.v
theories/IdfProofs3.v
theories/IdfProofs4.v
theories/IdfProofs5.v
theories/IdfProofs6.v
theories/IdfProps.v
theories/PeakModel.v
theories/PeakSpec.v
theories/PeakProofs.v
theories/PeakProofs2.v
theories/PeakProofs3.v
theories/PeakProofs4.v
theories/PeakProps.v
theories/HitModel.v
theories/HitSpec.v
theories/HitProofs.v
theories/HitProofs2.v
theories/HitProofs3.v
theories/HitProofs4.v
theories/HitProps.v
theories/CmpsModel.v
theories/CmpsSpec.v
theories/CmpsProofs.v
theories/CmpsProofs2.v
theories/CmpsProofs3.v
theories/CmpsProofs4.v
theories/CmpsProps.v
theories/LazModel.v
theories/LazSpec.v
theories/LazProofs.v
theories/LazProofs2.v
theories/LazProofs3.v
theories/LazProofs4.v
theories/LazProofs5.v
theories/LazProps.v
theories/RootModel.v
theories/RootSpec.v
theories/RootProofs.v
theories/RootProofs2.v
theories/RootProofs3.v
theories/RootProps.v
theories/ConeModel.v
theories/ConeSpec.v
theories/ConeProofs.v
theories/ConeProofs2.v
theories/ConeProofs3.v
theories/ConeProofs4.v
theories/ConeProofs5.v
theories/ConeProps.v
theories/CohModel.v
theories/CohSpec.v
theories/CohProofs.v
theories/CohProofs2.v
theories/CohProofs3.v
theories/CohProofs4.v
theories/CohProofs5.v
theories/CohProofs6.v
theories/CohProps.v
theories/RendModel.v
theories/RendSpec.v
theories/RendProofs.v
theories/RendProofs2.v
theories/RendProofs3.v
theories/RendProofs4.v
theories/RendProofs5.v
theories/RendProps.v
theories/EvqModel.v
theories/EvqSpec.v
theories/EvqProofs.v
theories/EvqProofs2.v
theories/EvqProofs3.v
theories/EvqProofs4.v
theories/EvqProofs5.v
theories/EvqProps.v
theories/CollModel.v
theories/CollSpec.v
theories/CollProofs.v
theories/CollProofs2.v
theories/CollProofs3.v
theories/CollProps.v
theories/SrcModel.v
theories/SrcSpec.v
theories/SrcProofs.v
theories/SrcProps.v
theories/PixModel.v
theories/PixSpec.v
theories/PixProofs.v
theories/PixProofs2.v
theories/PixProps.v
theories/McsModel.v
theories/McsSpec.v
theories/McsProofs.v
theories/McsProofs2.v
theories/McsProofs3.v
theories/McsProps.v
theories/TabModel.v
theories/TabSpec.v
theories/TabProofs.v
theories/TabProofs2.v
theories/TabProofs3.v
theories/TabProps.v
theories/SnsModel.v
theories/SnsSpec.v
theories/SnsProofs.v
theories/SnsProofs2.v
theories/SnsProofs3.v
theories/SnsProps.v
theories/RngModel.v
theories/RngSpec.v
theories/RngProofs.v
theories/RngProofs2.v
theories/RngProofs3.v
theories/RngProps.v
theories/KxmlModel.v
theories/KxmlSpec.v
theories/KxmlProofs.v
theories/KxmlProofs2.v
theories/KxmlProofs3.v
theories/KxmlProofs4.v
theories/KxmlProps.v
theories/OptModel.v
theories/OptSpec.v
theories/OptProofs.v
theories/OptProofs2.v
theories/OptProofs3.v
theories/OptProps.v
theories/BmonModel.v
theories/BmonSpec.v
theories/BmonProofs.v
theories/BmonProofs2.v
theories/BmonProofs3.v
theories/BmonProps.v
theories/GuidModel.v
theories/GuidSpec.v
theories/GuidProofs.v
theories/GuidProofs2.v
theories/GuidProps.v
theories/BsrcModel.v
theories/BsrcSpec.v
theories/BsrcProofs.v
theories/BsrcProofs2.v
theories/BsrcProofs3.v
theories/BsrcProofs4.v
theories/BsrcProps.v
theories/MirrModel.v
theories/MirrSpec.v
theories/MirrProofs.v
theories/MirrProps.v
theories/SelcModel.v
theories/SelcSpec.v
theories/SelcProofs.v
theories/SelcProps.v
theories/DmonModel.v
theories/DmonSpec.v
theories/DmonProofs.v
theories/DmonProps.v
theories/FiltModel.v
theories/FiltSpec.v
theories/FiltProofs.v
theories/FiltProps.v
theories/CmonModel.v
theories/CmonSpec.v
theories/CmonProofs.v
theories/CmonProps.v
theories/SmonModel.v
theories/SmonSpec.v
theories/SmonProofs.v
theories/SmonProps.v
