-Q theories Verif
theories/Num.v
theories/CommonModel.v
theories/CommonSpec.v
theories/CommonProofs.v
theories/CommonProofs2.v
theories/F32Err.v
theories/CommonProps.v
theories/CommonFovProps.v
theories/Mat.v
theories/HistModel.v
theories/HistProofs.v
theories/HistF32.v
theories/HistProps.v
theories/TfModel.v
theories/TfSpec.v
theories/TfProofs.v
theories/UsmModel.v
theories/NodeModel.v
theories/NodeSpec.v
theories/NodeProofs.v
theories/NodeProps.v
theories/PfModel.v
theories/PfSpec.v
theories/PfProofs.v
theories/PfProofs2.v
theories/PfProofs3.v
theories/PfPad.v
theories/PfSmooth.v
theories/PfCost.v
theories/PfMisc.v
theories/PfExtra.v
theories/PfProps.v
theories/StarModel.v
theories/StarSpec.v
theories/StarProofs.v
theories/StarProofs2.v
theories/StarProps.v
theories/LpModel.v
theories/LpSpec.v
theories/LpProofs.v
theories/LpProofs2.v
theories/LpProps.v
theories/WgModel.v
theories/WgSpec.v
theories/WgProofs.v
theories/WgProofs2.v
theories/WgProofs3.v
theories/WgProps.v
theories/NlModel.v
theories/NlSpec.v
theories/NlProofs.v
theories/NlProofs2.v
theories/NlProofs3.v
theories/NlProps.v
theories/SlModel.v
theories/SlSpec.v
theories/SlProofs.v
theories/SlProofs2.v
theories/SlProofs3.v
theories/SlProofs4.v
theories/SlProps.v
theories/SwModel.v
theories/SwSpec.v
theories/SwProofs.v
theories/SwProofs2.v
theories/SwProofs3.v
theories/SwProofs4.v
theories/SwProofs5.v
theories/SwProofs6.v
theories/SwProofs7.v
theories/SwProps.v
theories/SlnModel.v
theories/SlnProps.v
theories/Num64.v
theories/F64Err.v
theories/GpModel.v
theories/GpSearch.v
theories/GpAstar.v
theories/GpPlan.v
theories/GpSpec.v
theories/GpPlanSpec.v
theories/GpProofs.v
theories/GpArith.v
theories/GpProofs2.v
theories/GpNode.v
theories/GpNodeSpec.v
theories/GpCellProofs.v
theories/GpMiscProofs.v
theories/GpF64.v
theories/GpCostProofs.v
theories/GpPlanProofs.v
theories/GpF64b.v
theories/GpNodeProofs.v
theories/GpNodeProofs2.v
theories/GpNodeProofs3.v
theories/GpProps1.v
theories/GpProps1b.v
theories/GpProps2.v
theories/GpProps2b.v
theories/GpProps3.v
theories/GpFollow.v
theories/GpStats.v
theories/GpProps4.v
theories/GpConf.v
theories/GpConfProofs.v
theories/GpProps5.v
theories/GpCross.v
theories/GpProps6.v
theories/SlwModel.v
theories/SlwProps.v
theories/GcModel.v
theories/GcProps.v
theories/OrientProps.v
theories/SlvModel.v
theories/SlvProofs.v
theories/SlvProps.v
theories/LvModel.v
theories/LvProofs.v
theories/LvProps.v
theories/WlModel.v
theories/WlProps.v
theories/GmModel.v
theories/GmProps.v
theories/TrModel.v
theories/TrProps.v
theories/NtModel.v
theories/NtProofs.v
theories/NtProps.v
theories/ShModel.v
theories/ShProps.v
theories/NwModel.v
theories/NwSpec.v
theories/NwProofs.v
theories/NwProps.v
theories/GpInfo.v
theories/GpInfoProps.v
theories/PfDecide.v
theories/PfDecideProps.v
theories/NdModel.v
theories/NdProofs.v
theories/NdProps.v
theories/NdTorn.v
theories/NdTornProps.v
theories/LcModel.v
theories/LcProps.v
theories/LwProps.v
theories/RcModel.v
theories/RcProofs.v
theories/GrModel.v
theories/GrProps.v
theories/SrModel.v
theories/SrProps.v
theories/RcLive.v
theories/RlProps.v
theories/CamModel.v
theories/CamProofs.v
theories/CamProps.v
theories/MdModel.v
theories/MdProps.v
theories/WgLookSpec.v
theories/WgLookProofs.v
theories/WgLookProps.v
theories/WgLandProps.v
theories/FovRepProps.v
theories/SmallProps.v
theories/WgNanProps.v
theories/GpGoalProps.v
