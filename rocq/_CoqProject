-Q theories Verif
theories/Model/Base.v
theories/Model/Expr.v
theories/Model/SX.v
theories/Model/Robot.v
theories/Model/Kinematics.v
theories/Model/Dynamics.v
theories/Model/Regressors.v
theories/Model/Yaml.v
theories/Model/Inertia.v
theories/Model/Build.v
theories/Spec/Math.v
theories/Proofs/Sums.v
theories/Proofs/Calc.v
theories/Proofs/Lin3.v
theories/Proofs/Frames.v
theories/Proofs/Rel.v
theories/Proofs/Pure.v
theories/Proofs/PureRel.v
theories/Proofs/Maps.v
theories/Proofs/Names.v
theories/Proofs/Shape.v
theories/Proofs/Dims.v
theories/Proofs/Sizes.v
theories/Proofs/Deps.v
theories/Proofs/Closed.v
theories/Proofs/BuildEq.v
theories/Proofs/BuildDyn.v
theories/Proofs/BuildReg.v
theories/Spec/Setup.v
theories/Proofs/Load.v
theories/Proofs/Init.v
theories/Proofs/Final.v
theories/Proofs/Get.v
theories/Proofs/Kin.v
theories/Spec/Kinematics.v
theories/Proofs/KinThm.v
theories/Proofs/Motion.v
theories/Proofs/KinMain.v
theories/Proofs/Near.v
theories/Spec/Sample.v
theories/Proofs/Sample.v
theories/Spec/Api.v
theories/Proofs/SortedMaps.v
theories/Proofs/Select.v
theories/Proofs/Catalogue.v
theories/Proofs/Api.v
theories/Proofs/Sample1.v
theories/Props/P01_Kinematics.v
theories/Proofs/Smooth.v
theories/Proofs/Rates.v
theories/Props/P02_Rates.v
theories/Spec/Dynamics.v
theories/Proofs/Partial.v
theories/Proofs/Coriolis.v
theories/Proofs/Mass.v
theories/Proofs/DynMain.v
theories/Proofs/Energy.v
theories/Proofs/Lagrange.v
theories/Props/P03_Dynamics.v
theories/Spec/Regressor.v
theories/Proofs/Regress.v
theories/Proofs/RegEntries.v
theories/Proofs/RegMain.v
theories/Props/P04_Regressors.v
theories/Props/P05_Api.v
theories/Spec/State.v
theories/Proofs/State.v
theories/Proofs/InertiaConv.v
theories/Proofs/Files.v
theories/Proofs/AddFun.v
theories/Proofs/StateSess.v
theories/Proofs/UserFun.v
theories/Proofs/StateToy.v
theories/Props/P06_State.v
theories/Proofs/Types.v
theories/Proofs/RobotName.v
theories/Spec/Config.v
theories/Proofs/Parse.v
theories/Proofs/LoadSafe.v
theories/Proofs/ParseToy.v
theories/Props/P07_Config.v
theories/Spec/Damped.v
theories/Spec/Friction.v
theories/Spec/KinReg.v
theories/Proofs/Determinant.v
theories/Proofs/Damped.v
theories/Proofs/Friction.v
theories/Proofs/FrictionMain.v
theories/Proofs/RegJ.v
theories/Proofs/FrictionToy.v
theories/Props/P08_Friction.v
theories/Model/Text.v
theories/Model/Bodies.v
theories/Spec/Text.v
theories/Spec/Bodies.v
theories/Proofs/Text.v
theories/Proofs/Cli.v
theories/Proofs/Header.v
theories/Proofs/HeaderToy.v
theories/Proofs/Bodies.v
theories/Props/P09_Tools.v
theories/Model/Template.v
theories/Spec/Template.v
theories/Proofs/TSetters.v
theories/Proofs/TFiles.v
theories/Proofs/TSync.v
theories/Proofs/TSave.v
theories/Proofs/TFacts.v
theories/Proofs/TAgree.v
theories/Proofs/TLoad.v
theories/Proofs/TGet.v
theories/Proofs/TToy.v
theories/Proofs/TSavePar.v
theories/Props/P10_Generated.v
theories/Spec/Values.v
theories/Proofs/Values.v
theories/Proofs/ValuesToy.v
theories/Props/P11_Values.v
theories/Model/FrameOffset.v
theories/Spec/FrameOffset.v
theories/Proofs/FrameOffset.v
theories/Props/P12_Frames.v
theories/Spec/Tail.v
theories/Proofs/Tail.v
theories/Proofs/Turns.v
theories/Proofs/Velocity.v
theories/Proofs/TailToy.v
theories/Props/P13_Structure.v
theories/Model/GenYaml.v
theories/Spec/GenYaml.v
theories/Proofs/GenYaml.v
theories/Props/P14_InertialFiles.v
theories/Model/TemplateText.v
theories/Model/Main.v
theories/Model/Crash.v
theories/Spec/Generated.v
theories/Spec/Runs.v
theories/Proofs/Segments.v
theories/Proofs/GenText.v
theories/Proofs/GenFiles.v
theories/Proofs/MainGen.v
theories/Proofs/MainFiles.v
theories/Proofs/MainMore.v
theories/Proofs/Crash.v
theories/Props/P15_Generator.v
theories/Props/P16_Crashes.v
theories/Model/Threads.v
theories/Spec/Threads.v
theories/Spec/Safe.v
theories/Proofs/TSafe.v
theories/Proofs/Threads.v
theories/Proofs/ThreadsMain.v
theories/Props/P17_Threads.v
theories/Spec/Control.v
theories/Proofs/Control.v
theories/Proofs/ControlToy.v
theories/Props/P18_Control.v
theories/Spec/Order.v
theories/Proofs/Order.v
theories/Props/P19_Order.v
theories/Spec/Reload.v
theories/Proofs/Reload.v
theories/Proofs/ReloadToy.v
theories/Props/P20_Reload.v
theories/Model/Parallel.v
theories/Spec/Parallel.v
theories/Proofs/Parallel.v
theories/Proofs/ParallelToy.v
theories/Props/P21_Parallel.v
theories/Proofs/Forward.v
theories/Proofs/ForwardToy.v
theories/Props/P22_Forward.v
theories/Spec/Payload.v
theories/Proofs/Payload.v
theories/Proofs/PayloadToy.v
theories/Props/P23_Payload.v
theories/Spec/Defined.v
theories/Proofs/Defined.v
theories/Props/P24_Defined.v
theories/Spec/Bounds.v
theories/Proofs/Bounds.v
theories/Proofs/BoundsToy.v
theories/Props/P25_Bounds.v
theories/Spec/Elastic.v
theories/Proofs/Elastic.v
theories/Proofs/ElasticToy.v
theories/Props/P26_Elastic.v
theories/Model/Clients.v
theories/Spec/Clients.v
theories/Proofs/Clients.v
theories/Proofs/ClientsToy.v
theories/Props/P27_Clients.v
theories/Spec/Shipped.v
theories/Proofs/Shipped.v
theories/Props/P28_Shipped.v
theories/Spec/Tracking.v
theories/Proofs/Tracking.v
theories/Proofs/TrackingToy.v
theories/Props/P29_Tracking.v
theories/Spec/Rounding.v
theories/Proofs/Rounding.v
theories/Proofs/RoundingToy.v
theories/Props/P30_Rounding.v
theories/Proofs/Sensitivity.v
theories/Props/P31_Sensitivity.v
theories/Model/UserDefined.v
theories/Spec/UserDefined.v
theories/Proofs/UserStage.v
theories/Proofs/UserDefined.v
theories/Proofs/UserExample.v
theories/Props/P32_UserDefined.v
theories/Proofs/SetPar.v
theories/Proofs/SetParToy.v
theories/Props/P33_SetPar.v
theories/Model/Chrono.v
theories/Spec/Chrono.v
theories/Proofs/Chrono.v
theories/Props/P34_Chrono.v
theories/Proofs/SpringExact.v
theories/Spec/TReload.v
theories/Proofs/TReload.v
theories/Proofs/TReloadToy.v
theories/Proofs/TReloadOk.v
theories/Props/P35_TReload.v
