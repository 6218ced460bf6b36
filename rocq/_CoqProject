-Q theories Verif
theories/Flt.v
theories/FltFacts.v
theories/FltMore.v
theories/FltKey.v
theories/FltArith.v
theories/AllocModel.v
theories/AllocSpec.v
theories/AllocProofs.v
theories/AllocProofs2.v
theories/AllocProofs3.v
theories/AllocProps.v
theories/LoopModel.v
theories/LoopSpec.v
theories/LoopProofs.v
theories/LoopProps.v
theories/UtilModel.v
theories/UtilProofs.v
theories/UtilProps.v
theories/Libm.v
theories/EnvModel.v
theories/EnvSpec.v
theories/EnvProofs.v
theories/EnvProofs2.v
theories/LibmInst.v
theories/EnvInst.v
theories/EnvProps.v
theories/RealBounds.v
theories/PanModel.v
theories/PanSpec.v
theories/PanProofs.v
theories/PanProofs2.v
theories/PanInst.v
theories/PanProps.v
theories/FltClose.v
theories/OscModel.v
theories/OscSpec.v
theories/LcgProofs.v
theories/OscProofs.v
theories/OscProofs2.v
theories/OscProofs3.v
theories/OscProofs4.v
theories/OscInst.v
theories/OscProps.v
theories/SmoothModel.v
theories/SmoothSpec.v
theories/SmoothProofs.v
theories/ExpBounds.v
theories/SmoothProofs2.v
theories/SmoothProofs3.v
theories/SmoothProofs4.v
theories/SmoothInst.v
theories/SmoothProps.v
theories/LineModel.v
theories/LineSpec.v
theories/LineProofs.v
theories/LineProofs2.v
theories/LineInst.v
theories/PhasorProofs.v
theories/PhasorProofs2.v
theories/PhasorProofs3.v
theories/LineProps.v
theories/FltScale.v
theories/RdModel.v
theories/RdSpec.v
theories/RdProofs.v
theories/RdProofs2.v
theories/RdProofs3.v
theories/RdProps.v
theories/Res.v
theories/LnBounds.v
theories/Ln2.v
theories/CombModel.v
theories/CombSpec.v
theories/CombProofs.v
theories/CombProofs2.v
theories/CombProofs3.v
theories/CombProps.v
theories/FltRel.v
theories/DsModel.v
theories/DsSpec.v
theories/DsProofs.v
theories/DsProofs2.v
theories/DsProps.v
theories/XpModel.v
theories/XpSpec.v
theories/XpProofs.v
theories/XpProofs2.v
theories/XpProofs3.v
theories/XpProofs4.v
theories/XpProps.v
theories/Dbl.v
theories/DblRel.v
theories/LpModel.v
theories/LpSpec.v
theories/LpReal.v
theories/LpReal2.v
theories/LpProofs.v
theories/LpProofs2.v
theories/LpInst.v
theories/LpProps.v
theories/MgModel.v
theories/KjModel.v
theories/StModel.v
theories/MtModel.v
theories/MdModel.v
theories/ImModel.v
theories/ObModel.v
theories/RkModel.v
theories/MgSpec.v
theories/MgBase.v
theories/KjProofs.v
theories/StProofs.v
theories/MgComm.v
theories/MgInst.v
theories/MgProps.v
theories/LdSpec.v
theories/TanBounds.v
theories/ObProofs.v
theories/ObProofs2.v
theories/ObProps.v
theories/VcModel.v
theories/RnModel.v
theories/BlkModel.v
theories/BlkSpec.v
theories/BlkProofs.v
theories/BlkProps.v
theories/VcSpec.v
theories/VcProofs.v
theories/VcProofs2.v
theories/SsSpec.v
theories/SsProofs.v
theories/SsProofs2.v
theories/SsProofs3.v
theories/VcInst.v
theories/VcProps.v
theories/FvModel.v
theories/FvSpec.v
theories/FvSpec2.v
theories/FvProofs.v
theories/FvProofs2.v
theories/FvProofs3.v
theories/FvProofs4.v
theories/FvProofs5.v
theories/FvProofs6.v
theories/FvProofs7.v
theories/FvProofs8.v
theories/FvProofs9.v
theories/FvProps.v
theories/FvBound.v
theories/FvBound2.v
theories/FvBound3.v
theories/FvProps2.v
theories/LaSpec.v
theories/LaProofs.v
theories/ImProofs.v
theories/RkProofs.v
theories/RkProofs2.v
theories/RkProofs3.v
theories/MtProofs.v
theories/MtProofs2.v
theories/LaProps.v
theories/MdProofs.v
theories/MdProofs2.v
theories/MdProps.v
theories/PhasorProofs4.v
theories/PbModel.v
theories/PbProofs.v
theories/PbProofs2.v
theories/PbProofs3.v
theories/PbProofs4.v
theories/PbProofs5.v
theories/PbProps.v
theories/MxModel.v
theories/MxProofs.v
theories/MxProps.v
theories/JxModel.v
theories/JxSpec.v
theories/JxProofs.v
theories/JxProps.v
theories/XxModel.v
theories/XxProofs.v
theories/XxProofs2.v
theories/XxProps.v
theories/SxModel.v
theories/SxSpec.v
theories/SxProofs.v
theories/SxProofs2.v
theories/SxProps.v
theories/RnProofs.v
theories/RnProps.v
theories/OwnModel.v
theories/OwnSpec.v
theories/OwnProofs.v
theories/OwnProofs2.v
theories/OwnProps.v
theories/CpuModel.v
theories/CpuProofs.v
theories/CpuProofs2.v
theories/CpuProps.v
theories/ExpBounds2.v
theories/EnvTime.v
theories/EnvTime2.v
theories/EnvTimeProps.v
theories/BxModel.v
theories/BxProofs.v
theories/BxProofs2.v
theories/BxProofs3.v
theories/BxProps.v
theories/PolSpec.v
theories/FltPol.v
theories/PolProofs.v
theories/PolProofs2.v
theories/PolProofs3.v
theories/PolProofs4.v
theories/PolProps.v
theories/QtSpec.v
theories/QtProofs.v
theories/QtProps.v
theories/TailProofs.v
theories/TailProps.v
theories/DefProps.v
theories/SetProps.v
theories/RenewProps.v
theories/SetProps2.v
