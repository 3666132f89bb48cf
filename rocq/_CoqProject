-Q theories Verif
theories/Base.v
theories/EbitmapModel.v
theories/EbitmapSpec.v
theories/EbitmapProofs.v
theories/EbitmapProps.v
theories/MlsModel.v
theories/MlsSpec.v
theories/MlsProofs.v
theories/ContextModel.v
theories/ContextSpec.v
theories/ContextProofs.v
theories/MlsDemo.v
theories/MlsProps.v
theories/ContextProps.v
theories/AvtabModel.v
theories/AvtabSpec.v
theories/AvtabProofs.v
theories/AvtabProps.v
theories/CondModel.v
theories/CondSpec.v
theories/CondProofs.v
theories/CondProofs2.v
theories/CondProps.v
theories/ServicesModel.v
theories/ServicesSpec.v
theories/ServicesProofs.v
theories/ServicesDemo.v
theories/ServicesProps.v
theories/AvcModel.v
theories/AvcSpec.v
theories/AvcProofs.v
theories/AvcProps.v
theories/UsidModel.v
theories/UsidProofs.v
theories/UsidProps.v
theories/MappingModel.v
theories/MappingSpec.v
theories/MappingProofs.v
theories/MappingProps.v
theories/HashtabModel.v
theories/HashtabSpec.v
theories/HashtabProofs.v
theories/HashtabProps.v
theories/SidtabModel.v
theories/SidtabSpec.v
theories/SidtabProofs.v
theories/LoadProofs.v
theories/LoadDemo.v
theories/SidtabProps.v
theories/ComputeModel.v
theories/ComputeSpec.v
theories/ComputeProofs.v
theories/ComputeProps.v
theories/OconModel.v
theories/OconSpec.v
theories/OconProofs.v
theories/OconProps.v
theories/AssertModel.v
theories/AssertSpec.v
theories/AssertProofs.v
theories/AssertProps.v
theories/HierModel.v
theories/HierSpec.v
theories/HierProofs.v
theories/HierProps.v
theories/TypesetModel.v
theories/TypesetSpec.v
theories/TypesetProofs.v
theories/TypesetProps.v
theories/ExpandModel.v
theories/ExpandSpec.v
theories/ExpandProofs.v
theories/ExpandProps.v
theories/OptModel.v
theories/OptSpec.v
theories/OptProofs.v
theories/OptDecProofs.v
theories/OptProps.v
theories/StatusModel.v
theories/StatusSpec.v
theories/StatusProofs.v
theories/StatusProps.v
theories/LabelModel.v
theories/LabelSpec.v
theories/LabelProofs.v
theories/LabelPathProofs.v
theories/LabelDemo.v
theories/LabelProps.v
theories/DbModel.v
theories/DbSpec.v
theories/DbProofs.v
theories/DbJoinProofs.v
theories/DbDemo.v
theories/DbProps.v
theories/StoreModel.v
theories/StoreSpec.v
theories/StoreProofs.v
theories/StoreMoveProofs.v
theories/StoreDemo.v
theories/StoreProps.v
theories/CodecModel.v
theories/CodecSpec.v
theories/CodecProofs.v
theories/CodecTableProofs.v
theories/CodecDemo.v
theories/CodecProps.v
theories/FtransModel.v
theories/FtransSpec.v
theories/FtransProofs.v
theories/FtransIoProofs.v
theories/FtransProps.v
theories/LoginModel.v
theories/LoginSpec.v
theories/LoginProofs.v
theories/LoginProps.v
theories/LoginCtxProofs.v
theories/LoginCtxProps.v
theories/FcsortModel.v
theories/FcsortSpec.v
theories/FcsortProofs.v
theories/FcsortProps.v
theories/ShaSpec.v
theories/Sha1Model.v
theories/Sha256Model.v
theories/ShaBits.v
theories/ShaStream.v
theories/Sha1Proofs.v
theories/Sha1Props.v
theories/Sha256Proofs.v
theories/Sha256Props.v
theories/ChecksumModel.v
theories/ChecksumSpec.v
theories/ChecksumProofs.v
theories/ChecksumProps.v
theories/LinkModel.v
theories/LinkSpec.v
theories/LinkScopeProofs.v
theories/LinkProofs.v
theories/LinkProps.v
theories/RoleattrModel.v
theories/RoleattrSpec.v
theories/RoleattrProofs.v
theories/RoleattrProps.v
theories/RecordsModel.v
theories/RecordsSpec.v
theories/RecordsProofs.v
theories/RecordsStable.v
theories/RecordsProps.v
theories/DenyModel.v
theories/DenySpec.v
theories/DenyProofs.v
theories/DenyRuleProofs.v
theories/DenyTreeProofs.v
theories/DenyDemo.v
theories/DenyProps.v
theories/OrderModel.v
theories/OrderSpec.v
theories/OrderProofs.v
theories/OrderMore.v
theories/OrderProps.v
theories/CilctxModel.v
theories/CilctxSpec.v
theories/CilctxProofs.v
theories/CilctxMore.v
theories/CilctxProps.v
theories/CilexprModel.v
theories/CilexprSpec.v
theories/CilexprProofs.v
theories/CilexprEval.v
theories/CilexprSets.v
theories/CilexprSolve.v
theories/CilexprMain.v
theories/CilexprProps.v
theories/CilcondModel.v
theories/CilcondSpec.v
theories/CilcondProofs.v
theories/CilcondMain.v
theories/CilcondProps.v
theories/CilparseModel.v
theories/CilparseSpec.v
theories/CilparseProofs.v
theories/CilparseMain.v
theories/CilparseProps.v
theories/KcilModel.v
theories/KcilSpec.v
theories/KcilProofs.v
theories/KcilProps.v
theories/CilconsModel.v
theories/CilconsSpec.v
theories/CilconsProofs.v
theories/CilconsMain.v
theories/CilconsProps.v
theories/KconsModel.v
theories/KconsSpec.v
theories/KconsProofs.v
theories/KconsMain.v
theories/KconsDemo.v
theories/KconsProps.v
theories/LabtextModel.v
theories/LabtextSpec.v
theories/LabtextProofs.v
theories/LabtextProps.v
theories/RestoreModel.v
theories/RestoreSpec.v
theories/RestoreProofs.v
theories/RestoreProps.v
theories/PackModel.v
theories/PackSpec.v
theories/PackProofs.v
theories/PackMain.v
theories/PackTrip.v
theories/PackProps.v
theories/LabtextLookProps.v
theories/ModstoreModel.v
theories/ModstoreSpec.v
theories/ModstoreProofs.v
theories/ModstoreList.v
theories/ModstoreMain.v
theories/ModstoreDemo.v
theories/ModstoreProps.v
theories/HomedirModel.v
theories/HomedirSpec.v
theories/HomedirProofs.v
theories/HomedirProps.v
theories/ProcattrModel.v
theories/ProcattrSpec.v
theories/ProcattrProofs.v
theories/ProcattrProps.v
theories/SelconfModel.v
theories/SelconfSpec.v
theories/SelconfProofs.v
theories/SelconfProps.v
theories/SplitfcModel.v
theories/SplitfcSpec.v
theories/SplitfcProofs.v
theories/SplitfcProps.v
