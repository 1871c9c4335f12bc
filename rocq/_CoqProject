-Q theories Verif
theories/M_Base.v
theories/M_Codec.v
theories/M_Base64.v
theories/M_Utf8.v
theories/M_Prims.v
theories/M_Types.v
theories/M_Crypto.v
theories/M_Recovery.v
theories/S_Codec.v
theories/P_Base.v
theories/P_Codec.v
theories/Prop_Codec.v
theories/S_Policy.v
theories/P_Policy.v
theories/Prop_Policy.v
theories/S_Count.v
theories/P_Count.v
theories/Prop_Count.v
theories/S_Base64.v
theories/P_Base64.v
theories/P_Crypto.v
theories/S_Recovery.v
theories/P_Format.v
theories/P_Lines.v
theories/P_Validate.v
theories/S_Utf8.v
theories/T_Toy.v
theories/P_Recovery.v
theories/P_Keys.v
theories/Prop_Crypto.v
theories/Prop_Recovery.v
theories/S_Json.v
theories/M_Json.v
theories/M_Serde.v
theories/P_Json.v
theories/M_Storage.v
theories/M_Passwords.v
theories/S_Serde.v
theories/P_Serde.v
theories/P_Utf8.v
theories/P_File.v
theories/Prop_Serde.v
theories/S_Text.v
theories/P_Text.v
theories/Prop_Text.v
theories/S_Accept.v
theories/P_Accept.v
theories/Prop_Accept.v
theories/S_Vault.v
theories/M_History.v
theories/P_Storage.v
theories/S_Api.v
theories/P_Api.v
theories/P_Calls.v
theories/P_Vault.v
theories/P_History.v
theories/S_History.v
theories/P_Sound.v
theories/P_Size.v
theories/P_Similar.v
theories/P_Corollary.v
theories/P_Props.v
theories/T_History.v
theories/Prop_Calls.v
theories/S_Chance.v
theories/P_Chance.v
theories/Prop_Chance.v
theories/S_Luck.v
theories/P_Luck.v
theories/Prop_Luck.v
theories/S_Watch.v
theories/P_Watch.v
theories/Prop_Watch.v
theories/S_Rewrite.v
theories/P_Rewrite.v
theories/Prop_Rewrite.v
theories/S_Order.v
theories/P_Order.v
theories/P_Permute.v
theories/Prop_Order.v
theories/S_Possible.v
theories/P_Possible.v
theories/Prop_Possible.v
theories/M_Double.v
theories/S_Double.v
theories/P_Double.v
theories/P_Client.v
theories/Prop_Double.v
theories/M_Logging.v
theories/S_Logging.v
theories/P_Logging.v
theories/Prop_Logging.v
theories/M_LogThreads.v
theories/P_LogThreads.v
theories/Prop_LogThreads.v
theories/M_Pipe.v
theories/S_Pipe.v
theories/P_Pipe.v
theories/P_PipeMain.v
theories/T_Pipe.v
theories/Prop_Pipe.v
theories/M_Wait.v
theories/P_Wait.v
theories/Prop_Wait.v
theories/Prop_Vault.v
theories/M_Cli.v
theories/S_Cli.v
theories/P_CliBase.v
theories/S_Trim.v
theories/P_Trim.v
theories/P_CliCalls.v
theories/P_CliUnlock.v
theories/P_CliCommands.v
theories/P_CliMain.v
theories/P_CliQr.v
theories/P_CliRecovery.v
theories/P_CliList.v
theories/P_CliVault.v
theories/P_CliLives.v
theories/P_CliWorld.v
theories/P_CliProps.v
theories/T_Cli.v
theories/Prop_Cli.v
theories/P_CliNext.v
theories/Prop_CliList.v
theories/S_Backup.v
theories/P_Backup.v
theories/Prop_Backup.v
theories/S_Tamper.v
theories/P_Tamper.v
theories/T_Tamper.v
theories/Prop_Tamper.v
theories/S_Foreign.v
theories/P_Foreign.v
theories/Prop_Foreign.v
theories/M_Syscalls.v
theories/S_Overlap.v
theories/P_Overlap.v
theories/Prop_Overlap.v
theories/S_Inputs.v
theories/P_Inputs.v
theories/Prop_Inputs.v
theories/P_Swaps.v
theories/S_Codes.v
theories/P_Codes.v
theories/Prop_Codes.v
theories/M_Memory.v
theories/S_Memory.v
theories/P_Memory.v
theories/Prop_Memory.v
theories/S_Screen.v
theories/P_Screen.v
theories/T_Screen.v
theories/Prop_Screen.v
theories/M_Steps.v
theories/S_Steps.v
theories/P_Steps.v
theories/P_Points.v
theories/P_StepCalls.v
theories/P_StepFile.v
theories/P_StepProps.v
theories/P_StepShell.v
theories/T_Steps.v
theories/Prop_Steps.v
theories/M_Files.v
theories/S_Files.v
theories/P_Files.v
theories/Prop_Files.v
theories/P_Ext.v
theories/M_Machine.v
theories/S_Machine.v
theories/P_Machine.v
theories/Prop_Machine.v
theories/S_Listing.v
theories/P_Listing.v
theories/Prop_Listing.v
theories/S_Abort.v
theories/P_Abort.v
theories/P_AbortCli.v
theories/T_Abort.v
theories/Prop_Abort.v
theories/M_Concrete.v
theories/S_Wild.v
theories/P_Concrete.v
theories/T_Repo.v
theories/Prop_Concrete.v
theories/S_Failure.v
theories/P_Failure.v
theories/Prop_Failure.v
theories/M_Args.v
theories/S_Args.v
theories/P_Args.v
theories/P_Split.v
theories/P_Line.v
theories/Prop_Args.v
theories/T_CliRepo.v
theories/M_Shell.v
theories/S_Shell.v
theories/P_Shell.v
theories/Prop_Shell.v
theories/S_Session.v
theories/P_Session.v
theories/Prop_Session.v
theories/M_Processes.v
theories/S_Processes.v
theories/P_Processes.v
theories/P_Blind.v
theories/T_Processes.v
theories/Prop_Processes.v
