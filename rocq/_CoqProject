-Q theories Verif
theories/Base.v
theories/MBootspec.v
theories/MClap.v
theories/MCli.v
theories/MCpio.v
theories/MCryptenroll.v
theories/MEnroll.v
theories/MEnrollText.v
theories/MFirmware.v
theories/MFs.v
theories/MFwupd.v
theories/MGeneration.v
theories/MHook.v
theories/MHookText.v
theories/MInstall.v
theories/MLoaderConf.v
theories/MNames.v
theories/MOsRelease.v
theories/MPe.v
theories/MPolicy.v
theories/MProvision.v
theories/MReboot.v
theories/MSbctl.v
theories/MSearch.v
theories/MSecureLock.v
theories/MStatic.v
theories/MStub.v
theories/MTemp.v
theories/MText.v
theories/MTool.v
theories/MVersion.v
theories/PAttack.v
theories/PBase.v
theories/PBoot.v
theories/PBootspec.v
theories/PClap.v
theories/PCli.v
theories/PCompanion.v
theories/PConf.v
theories/PCount.v
theories/PCpio.v
theories/PCryptenroll.v
theories/PDefault.v
theories/PEnroll.v
theories/PEnrollText.v
theories/PEntry.v
theories/PExact.v
theories/PFiles.v
theories/PFirmware.v
theories/PFs.v
theories/PFwupd.v
theories/PGate.v
theories/PGateUse.v
theories/PGc.v
theories/PGen.v
theories/PHistories.v
theories/PHistory.v
theories/PHook.v
theories/PImage.v
theories/PInstall.v
theories/PLinux.v
theories/PLoader.v
theories/PLoaderConf.v
theories/PMeasureCount.v
theories/PMeasured.v
theories/PMenu.v
theories/PMonad.v
theories/PNames.v
theories/POrder.v
theories/POsRelease.v
theories/POwned.v
theories/PPanic.v
theories/PPaths.v
theories/PPcr.v
theories/PPe.v
theories/PPolicy.v
theories/PProgress.v
theories/PProvision.v
theories/PReboot.v
theories/PRepeat.v
theories/PRoom.v
theories/PRun.v
theories/PSbctl.v
theories/PSbctlUse.v
theories/PSearch.v
theories/PSecrets.v
theories/PSecureLock.v
theories/PSelect.v
theories/PShell.v
theories/PSigned.v
theories/PSmeasure.v
theories/PStatic.v
theories/PStaticAny.v
theories/PStub.v
theories/PStubRun.v
theories/PSwitch.v
theories/PTemp.v
theories/PText.v
theories/PTrace.v
theories/PTwice.v
theories/PUse.v
theories/PVersion.v
theories/Properties_Attack.v
theories/Properties_Bootspec.v
theories/Properties_Clap.v
theories/Properties_Cli.v
theories/Properties_Companion.v
theories/Properties_Cpio.v
theories/Properties_Cryptenroll.v
theories/Properties_Default.v
theories/Properties_Enroll.v
theories/Properties_EnrollText.v
theories/Properties_Entry.v
theories/Properties_Exact.v
theories/Properties_Firmware.v
theories/Properties_Fwupd.v
theories/Properties_Gate.v
theories/Properties_History.v
theories/Properties_Hook.v
theories/Properties_Image.v
theories/Properties_Linux.v
theories/Properties_Loader.v
theories/Properties_Menu.v
theories/Properties_Names.v
theories/Properties_Order.v
theories/Properties_OsRelease.v
theories/Properties_Panic.v
theories/Properties_Pcr.v
theories/Properties_Pe.v
theories/Properties_Policy.v
theories/Properties_Progress.v
theories/Properties_Provision.v
theories/Properties_Reboot.v
theories/Properties_Repeat.v
theories/Properties_Room.v
theories/Properties_Run.v
theories/Properties_Sbctl.v
theories/Properties_SbctlUse.v
theories/Properties_Search.v
theories/Properties_Secrets.v
theories/Properties_SecureLock.v
theories/Properties_Select.v
theories/Properties_Shell.v
theories/Properties_Signed.v
theories/Properties_Smeasure.v
theories/Properties_Static.v
theories/Properties_Stub.v
theories/Properties_Switch.v
theories/Properties_Temp.v
theories/Properties_Version.v
theories/SAttack.v
theories/SBootspec.v
theories/SClap.v
theories/SCli.v
theories/SCommon.v
theories/SCompanion.v
theories/SCpio.v
theories/SCryptenroll.v
theories/SEnroll.v
theories/SEnrollText.v
theories/SExact.v
theories/SFirmware.v
theories/SFwupd.v
theories/SGate.v
theories/SHistory.v
theories/SHook.v
theories/SImage.v
theories/SInstall.v
theories/SLinux.v
theories/SLoaderConf.v
theories/SMeasure.v
theories/SMenu.v
theories/SNames.v
theories/SOrder.v
theories/SOsRelease.v
theories/SPanic.v
theories/SPcr.v
theories/SPe.v
theories/SPolicy.v
theories/SProgress.v
theories/SProvision.v
theories/SReboot.v
theories/SRepeat.v
theories/SRoom.v
theories/SSbctl.v
theories/SSearch.v
theories/SSecrets.v
theories/SSecureLock.v
theories/SShell.v
theories/SSigned.v
theories/SStatic.v
theories/SStub.v
theories/SSwitch.v
theories/STemp.v
theories/SUse.v
theories/SVersion.v
theories/Tests.v
theories/XMachine.v
theories/XTemp.v
theories/XWorld.v
