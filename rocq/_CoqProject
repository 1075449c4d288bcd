-Q theories Verif
theories/Accuracy2Proofs.v
theories/Accuracy3Proofs.v
theories/Accuracy4Proofs.v
theories/Accuracy5Proofs.v
theories/Accuracy6Proofs.v
theories/Accuracy7Proofs.v
theories/Accuracy8Proofs.v
theories/AccuracyFinal.v
theories/AccuracyProofs.v
theories/BC3Proofs.v
theories/BannerProofs.v
theories/CHProofs.v
theories/CSR2Proofs.v
theories/CSR3Proofs.v
theories/CSRFinal.v
theories/CSRProofs.v
theories/DamageFinal.v
theories/Disc2DProofs.v
theories/Disc3DProofs.v
theories/Double2Proofs.v
theories/Double3Proofs.v
theories/Double4Proofs.v
theories/Double5Proofs.v
theories/Double6Proofs.v
theories/DoubleFinal.v
theories/DoubleProofs.v
theories/EarlyFinal.v
theories/EnergyProofs.v
theories/ExampleNum.v
theories/FieldFinal.v
theories/FieldProofs.v
theories/Gather.v
theories/GridFinal.v
theories/ImplicitFinal.v
theories/IndexProofs.v
theories/Int32Proofs.v
theories/Jac1Proofs.v
theories/Jac2Proofs.v
theories/Jac3Proofs.v
theories/Jac4Proofs.v
theories/Jac5Proofs.v
theories/JacFinal.v
theories/Kernel.v
theories/KernelProofs.v
theories/LDUProofs.v
theories/LimitsFinal.v
theories/LimitsProofs.v
theories/Logger2Proofs.v
theories/LoggerFinal.v
theories/LoggerProofs.v
theories/Loop.v
theories/MG1Proofs.v
theories/MG2Proofs.v
theories/MG3Proofs.v
theories/MG4Proofs.v
theories/MG5Proofs.v
theories/MG6Proofs.v
theories/MGFinal.v
theories/Make2Proofs.v
theories/Make3Proofs.v
theories/MemFinal.v
theories/MemProofs.v
theories/ModelBanner.v
theories/ModelCH.v
theories/ModelCSR.v
theories/ModelDisc2D.v
theories/ModelDisc3D.v
theories/ModelDouble.v
theories/ModelImplicit.v
theories/ModelIndex.v
theories/ModelInt32.v
theories/ModelJac.v
theories/ModelLDU.v
theories/ModelLogger.v
theories/ModelMG.v
theories/ModelMGCH.v
theories/ModelMain.v
theories/ModelMem.v
theories/ModelMon.v
theories/ModelNames.v
theories/ModelObs.v
theories/ModelOptions.v
theories/ModelPetsc.v
theories/ModelPetscSetup.v
theories/ModelPoisson.v
theories/ModelProgram.v
theories/ModelReduce.v
theories/ModelRun.v
theories/ModelText.v
theories/ModelTime.v
theories/ModelVTK.v
theories/ModelXML.v
theories/Mon1Proofs.v
theories/Mon2Proofs.v
theories/Mon3Proofs.v
theories/Mon4Proofs.v
theories/MonFinal.v
theories/Num.v
theories/Options2Proofs.v
theories/Options3Proofs.v
theories/Options4Proofs.v
theories/OptionsFinal.v
theories/OptionsProofs.v
theories/Outcome.v
theories/ParFinal.v
theories/PetscFinal.v
theories/PetscProofs.v
theories/PetscSetupFinal.v
theories/PoissonFinal.v
theories/PoissonImplicitFinal.v
theories/PoissonProofs.v
theories/PoissonRunFinal.v
theories/PolyProofs.v
theories/Program10Proofs.v
theories/Program11Proofs.v
theories/Program12Proofs.v
theories/Program13Proofs.v
theories/Program14Proofs.v
theories/Program15Proofs.v
theories/Program16Proofs.v
theories/Program17Proofs.v
theories/Program18Proofs.v
theories/Program19Proofs.v
theories/Program20Proofs.v
theories/Program21Proofs.v
theories/Program22Proofs.v
theories/Program23Proofs.v
theories/Program2Proofs.v
theories/Program3Proofs.v
theories/Program4Proofs.v
theories/Program5Proofs.v
theories/Program6Proofs.v
theories/Program7Proofs.v
theories/Program8Proofs.v
theories/Program9Proofs.v
theories/ProgramFinal.v
theories/ProgramProofs.v
theories/PropsAccuracy.v
theories/PropsCSR.v
theories/PropsDamage.v
theories/PropsDouble.v
theories/PropsEarly.v
theories/PropsField.v
theories/PropsGrid.v
theories/PropsImplicit.v
theories/PropsJac.v
theories/PropsLimits.v
theories/PropsLogger.v
theories/PropsMG.v
theories/PropsMem.v
theories/PropsMon.v
theories/PropsOptions.v
theories/PropsPar.v
theories/PropsPetsc.v
theories/PropsPetscSetup.v
theories/PropsPoisson.v
theories/PropsPoissonImplicit.v
theories/PropsPoissonRun.v
theories/PropsProgram.v
theories/PropsReject.v
theories/PropsRerun.v
theories/PropsRestart.v
theories/PropsRestartRun.v
theories/PropsResume.v
theories/PropsRun.v
theories/PropsStep.v
theories/PropsTable.v
theories/PropsTransfer.v
theories/PropsVTK.v
theories/PropsXML.v
theories/ReduceProofs.v
theories/RejectFinal.v
theories/RejectProofs.v
theories/RerunFinal.v
theories/Restart2Proofs.v
theories/RestartFinal.v
theories/RestartProofs.v
theories/RestartRunFinal.v
theories/ResumeFinal.v
theories/RunFinal.v
theories/SpecAccuracy.v
theories/SpecDefaults.v
theories/SpecDouble.v
theories/SpecField.v
theories/SpecGrid.v
theories/SpecImplicit.v
theories/SpecJac.v
theories/SpecLimits.v
theories/SpecLogger.v
theories/SpecMG.v
theories/SpecMatrix.v
theories/SpecMem.v
theories/SpecMon.v
theories/SpecNumber.v
theories/SpecObs.v
theories/SpecOptions.v
theories/SpecPetsc.v
theories/SpecPetscSetup.v
theories/SpecPoissonRun.v
theories/SpecPoly.v
theories/SpecProgram.v
theories/SpecReject.v
theories/SpecRestart.v
theories/SpecResume.v
theories/SpecTable.v
theories/SpecTime.v
theories/SpecVTK.v
theories/SpecXML.v
theories/Stencil3Proofs.v
theories/Step1Proofs.v
theories/Step2Proofs.v
theories/StepFinal.v
theories/SumProofs.v
theories/TableFinal.v
theories/TableProofs.v
theories/TableRunProofs.v
theories/TextProofs.v
theories/Time1Proofs.v
theories/Time2Proofs.v
theories/Time3Proofs.v
theories/Transfer3Proofs.v
theories/TransferFinal.v
theories/VTK2Proofs.v
theories/VTK3Proofs.v
theories/VTK4Proofs.v
theories/VTKFinal.v
theories/VTKProofs.v
theories/XML2Proofs.v
theories/XMLFinal.v
theories/XMLProofs.v
theories/ZList.v
theories/ZListProofs.v
