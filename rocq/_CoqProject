-Q theories Verif
theories/Py.v
theories/PyLemmas.v
theories/QLemmas.v
theories/OrdCollModel.v
theories/OrdCollSpec.v
theories/OrdCollProofs.v
theories/OrdCollProps.v
theories/LandModel.v
theories/LandSpec.v
theories/LandProofs.v
theories/LandProofs2.v
theories/LandProps.v
theories/ProjModel.v
theories/ProjSpec.v
theories/ProjProofs.v
theories/ProjProps.v
theories/MapModel.v
theories/MapSpec.v
theories/MapProofs.v
theories/MapProps.v
theories/TimeModel.v
theories/TimeSpec.v
theories/TimeProofs.v
theories/TimeProps.v
theories/StepModel.v
theories/StepSpec.v
theories/StepProofs.v
theories/StepProps.v
theories/ReleaseModel.v
theories/ReleaseSpec.v
theories/ReleaseProofs.v
theories/ReleaseProps.v
theories/ScModel.v
theories/ScSpec.v
theories/ScProofs.v
theories/ScProofs2.v
theories/ScProps.v
theories/PairModel.v
theories/PairSpec.v
theories/PairProofs.v
theories/PairProps.v
theories/OutModel.v
theories/OutSpec.v
theories/OutProofs.v
theories/OutProps.v
theories/PipModel.v
theories/PipSpec.v
theories/PipProofs.v
theories/PipProps.v
theories/PolyModel.v
theories/PolySpec.v
theories/PolyProofs.v
theories/PolyProps.v
theories/BBoxModel.v
theories/BBoxSpec.v
theories/BBoxProofs.v
theories/BBoxProps.v
theories/CleanModel.v
theories/CleanSpec.v
theories/CleanProofs.v
theories/CleanProps.v
theories/BeachModel.v
theories/BeachSpec.v
theories/BeachProofs.v
theories/BeachProps.v
theories/WxModel.v
theories/WxSpec.v
theories/WxProofs.v
theories/WxProps.v
theories/SprModel.v
theories/SprSpec.v
theories/SprProofs.v
theories/SprProps.v
theories/OrderModel.v
theories/OrderSpec.v
theories/OrderProofs.v
theories/OrderProps.v
theories/BcModel.v
theories/BcSpec.v
theories/BcProofs.v
theories/BcProps.v
theories/MvModel.v
theories/MvSpec.v
theories/MvProofs.v
theories/MvProps.v
theories/UncModel.v
theories/UncSpec.v
theories/UncProofs.v
theories/UncProps.v
theories/WunModel.v
theories/WunSpec.v
theories/WunProps.v
theories/CacheModel.v
theories/CacheSpec.v
theories/CacheProofs.v
theories/CacheProps.v
theories/StrModel.v
theories/StrLemmas.v
theories/PersModel.v
theories/PersSpec.v
theories/PersProofs.v
theories/PersProps.v
theories/SaveModel.v
theories/SaveSpec.v
theories/SaveProofs.v
theories/SaveProps.v
theories/TsModel.v
theories/TsSpec.v
theories/TsProofs.v
theories/TsProps.v
theories/WindModel.v
theories/WindSpec.v
theories/WindProofs.v
theories/WindProps.v
theories/RndModel.v
theories/RndSpec.v
theories/RndProofs.v
theories/RndProps.v
theories/TfModel.v
theories/TfSpec.v
theories/TfProofs.v
theories/TfProps.v
theories/QryModel.v
theories/QrySpec.v
theories/QryProofs.v
theories/QryProps.v
theories/RvwModel.v
theories/RvwSpec.v
theories/RvwProofs.v
theories/RvwProps.v
theories/RocModel.v
theories/RocSpec.v
theories/RocProofs.v
theories/RocProps.v
theories/OilModel.v
theories/OilSpec.v
theories/OilProofs.v
theories/OilProps.v
theories/VisModel.v
theories/VisSpec.v
theories/VisProofs.v
theories/VisProps.v
theories/SetModel.v
theories/SetSpec.v
theories/SetProofs.v
theories/SetProps.v
theories/UpdModel.v
theories/UpdSpec.v
theories/UpdProofs.v
theories/UpdProps.v
theories/EqModel.v
theories/EqSpec.v
theories/EqProofs.v
theories/EqProps.v
theories/NcModel.v
theories/NcSpec.v
theories/NcProofs.v
theories/NcProps.v
theories/WavModel.v
theories/WavSpec.v
theories/WavProofs.v
theories/WavProps.v
theories/GcModel.v
theories/GcSpec.v
theories/GcProofs.v
theories/GcProps.v
theories/FilModel.v
theories/FilSpec.v
theories/FilProofs.v
theories/FilProps.v
theories/PlmModel.v
theories/PlmSpec.v
theories/PlmProofs.v
theories/PlmProps.v
theories/PrlModel.v
theories/PrlSpec.v
theories/PrlProofs.v
theories/PrlProps.v
theories/FldModel.v
theories/FldSpec.v
theories/FldProofs.v
theories/FldProps.v
theories/SplModel.v
theories/SplSpec.v
theories/SplProofs.v
theories/SplProps.v
theories/MrgModel.v
theories/MrgSpec.v
theories/MrgProofs.v
theories/MrgProps.v
theories/MigModel.v
theories/MigSpec.v
theories/MigProofs.v
theories/MigProps.v
theories/BrdModel.v
theories/BrdSpec.v
theories/BrdProofs.v
theories/BrdProps.v
theories/NceModel.v
theories/NceSpec.v
theories/NceProofs.v
theories/NceProps.v
theories/HulModel.v
theories/HulSpec.v
theories/HulProofs.v
theories/HulProps.v
theories/BnaModel.v
theories/BnaSpec.v
theories/BnaProofs.v
theories/BnaProps.v
theories/ShpModel.v
theories/ShpSpec.v
theories/ShpProofs.v
theories/ShpProps.v
theories/TidModel.v
theories/TidSpec.v
theories/TidProofs.v
theories/TidProps.v
theories/AvgModel.v
theories/AvgSpec.v
theories/AvgProofs.v
theories/AvgProps.v
theories/AppModel.v
theories/AppSpec.v
theories/AppProofs.v
theories/AppProps.v
theories/SrfModel.v
theories/SrfSpec.v
theories/SrfProofs.v
theories/SrfProps.v
theories/DstModel.v
theories/DstSpec.v
theories/DstProofs.v
theories/DstProps.v
theories/DisModel.v
theories/DisSpec.v
theories/DisProofs.v
theories/DisProps.v
