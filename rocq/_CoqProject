-Q theories Verif
theories/AppModel.v
theories/AppSpec.v
theories/AppSteps.v
theories/VotingProofs.v
theories/AppInv.v
theories/AppProofs1.v
theories/AppProofs2.v
theories/AppProofs3.v
theories/PowerProofs.v
theories/AppProofs4.v
theories/AppProofs5.v
theories/AppWitness.v
theories/PropsApp.v
theories/PersistModel.v
theories/PersistProofs.v
theories/PropsPersist.v
theories/Pocklington.v
theories/Fq.v
theories/Poly.v
theories/CryptoModel.v
theories/CryptoSpec.v
theories/CryptoProofs.v
theories/PropsCrypto.v
theories/DkgModel.v
theories/DkgSpec.v
theories/DkgProofs.v
theories/PropsDkg.v
theories/EpochModel.v
theories/PropsEpoch.v
theories/EncModel.v
theories/EncProofs.v
theories/GoHeap.v
theories/EncMemModel.v
theories/PropsEnc.v
theories/EncodingModel.v
theories/PropsEncoding.v
theories/PendingModel.v
theories/PendingSpec.v
theories/PendingProofs.v
theories/PropsPending.v
theories/ObserveModel.v
theories/ObserveProofs.v
theories/SyncModel.v
theories/SyncProofs.v
theories/PropsObserve.v
theories/ArithModel.v
theories/PropsArith.v
theories/ContractsModel.v
theories/ContractsProofs.v
theories/PropsBank.v
theories/PropsVotes.v
theories/PropsSlasher.v
theories/PropsConfig.v
theories/PropsBatcher.v
theories/PropsExec.v
theories/PropsContracts.v
theories/MainModel.v
theories/MainProofs.v
theories/PropsMain.v
theories/DecideModel.v
theories/DecideProofs.v
theories/PropsDecide.v
theories/PropsExecution.v
theories/PropsDefence.v
theories/KeyperModel.v
theories/KeyperSpec.v
theories/KeyperDkgProofs.v
theories/KeyperStepProofs.v
theories/KeyperHistProofs.v
theories/KeyperRunProofs.v
theories/KeyperLogProofs.v
theories/KeyperActionProofs.v
theories/DkgExact.v
theories/KeyperSystem.v
theories/PropsKeyper.v
theories/PropsKeyperDkg.v
theories/PropsKeyperLive.v
theories/PropsShares.v
theories/PropsKeyShares.v
theories/PropsCheckIn.v
theories/KeyperWitness.v
theories/KeyperRefuted.v
theories/SharesWitness.v
theories/EventsModel.v
theories/EventsSpec.v
theories/EventsProofs.v
theories/PropsEvents.v
theories/PropsChain.v
theories/PropsFull.v
theories/EventsWitness.v
theories/FullWitness.v
theories/SafeProofs.v
theories/SafeDecide.v
theories/PropsSafe.v
theories/PropsSafeView.v
theories/SafeWitness.v
theories/BnField.v
theories/BlsModel.v
theories/BlsProofs.v
theories/PropsBls.v
theories/BlsWitness.v
theories/OpenModel.v
theories/OpenProofs.v
theories/PropsOpen.v
theories/OpenWitness.v
theories/AcceptApp.v
theories/AcceptKeyper.v
theories/AcceptChain.v
theories/PropsAccept.v
theories/AcceptWitness.v
theories/ExpireModel.v
theories/PropsExpire.v
theories/CommandModel.v
theories/PropsCommand.v
theories/PropsTakeover.v
theories/PropsPunish.v
theories/PrepareModel.v
theories/PropsPrepare.v
theories/TargetModel.v
theories/PropsTarget.v
theories/GasModel.v
theories/PropsGas.v
theories/ExampleModel.v
theories/PropsExample.v
theories/PropsDelivery.v
theories/ProtoModel.v
theories/ProtoProofs.v
theories/PropsProto.v
theories/ConfigFileModel.v
theories/PropsConfigFile.v
theories/DeployModel.v
theories/PropsDeploy.v
