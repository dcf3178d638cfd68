-Q theories Verif
theories/Base.v
theories/Utf8.v
theories/Key.v
theories/KeySpec.v
theories/KeyProofs.v
theories/KeyOrder.v
theories/KeyMore.v
theories/KeyExact.v
theories/PropKey.v
theories/KeyPrefix.v
theories/KeyPrefixProofs.v
theories/PropKeyPrefix.v
theories/DocId.v
theories/DocIdProofs.v
theories/PropDocId.v
theories/Names.v
theories/NamesProofs.v
theories/PropNames.v
theories/Time.v
theories/TimeProofs.v
theories/PropTime.v
theories/Tree.v
theories/View.v
theories/ViewProofs.v
theories/ViewMap.v
theories/Docs.v
theories/DocsProofs.v
theories/DocsSpec.v
theories/DocsMore.v
theories/DocsHist.v
theories/PropDocs.v
theories/Modify.v
theories/PropModify.v
theories/PropAutoId.v
theories/Query.v
theories/ViewTotal.v
theories/ViewSync.v
theories/ViewSyncProofs.v
theories/PropViews.v
theories/PropQuery.v
theories/PropSync.v
theories/Kv.v
theories/KvSpec.v
theories/KvProofs.v
theories/KvSim.v
theories/PropKv.v
theories/KvDisk.v
theories/PropKvDisk.v
theories/PropKvLoad.v
theories/Jobs.v
theories/PropJobs.v
theories/Files.v
theories/FilesProofs.v
theories/FilesRead.v
theories/PropFiles.v
theories/PropRead.v
theories/PropAppend.v
theories/FilePath.v
theories/PropPath.v
theories/PropList.v
theories/Vault.v
theories/PropVault.v
theories/Databases.v
theories/DatabasesProofs.v
theories/PropDatabases.v
theories/PubSub.v
theories/PropPubSub.v
theories/Perms.v
theories/PropPerms.v
theories/Sessions.v
theories/PropSessions.v
theories/Backup.v
theories/BackupProofs.v
theories/BackupPath.v
theories/PropBackup.v
theories/ClientWorker.v
theories/ClientWorkerProofs.v
theories/PropClientWorker.v
theories/ServerQueue.v
theories/ServerQueueProofs.v
theories/PropServerQueue.v
theories/ConnSessions.v
theories/ConnSessionsProofs.v
theories/PropConnSessions.v
theories/Schematic.v
theories/SchematicProofs.v
theories/PropSchematic.v
theories/Remote.v
theories/RemoteClient.v
theories/RemoteProofs.v
theories/RemoteLive.v
theories/PropRemote.v
theories/OpenStorage.v
theories/OpenStorageProofs.v
theories/OpenStorageInv.v
theories/OpenVaultInv.v
theories/OpenCalm.v
theories/PropOpenStorage.v
theories/Entry.v
theories/EntryProofs.v
theories/PropEntry.v
theories/Passwords.v
theories/PasswordsProofs.v
theories/PropPasswords.v
theories/TimeText.v
theories/TimeTextProofs.v
theories/PropTimeText.v
theories/VarKey.v
theories/VarKeyProofs.v
theories/PropVarKey.v
theories/KeyV1.v
theories/KeyV1Proofs.v
theories/PropKeyV1.v
theories/PropPathOutcome.v
theories/Dispatch.v
theories/DispatchProofs.v
theories/DispatchExample.v
theories/PropDispatch.v
theories/KvApi.v
theories/PropKvApi.v
theories/Access.v
theories/PropAccess.v
theories/Shutdown.v
theories/PropShutdown.v
theories/Typed.v
theories/TypedSpec.v
theories/TypedProofs.v
theories/PropTyped.v
theories/TypedView.v
theories/PropTypedView.v
theories/Workers.v
theories/PropWorkers.v
theories/Certs.v
theories/PropCerts.v
theories/Describe.v
theories/PropDescribe.v
theories/ClientHooks.v
theories/ClientHooksProofs.v
theories/PropClientHooks.v
theories/TxLog.v
theories/PropTxLog.v
theories/AsyncAppend.v
theories/PropAsyncAppend.v
theories/MapPipeline.v
theories/MapPipelineProofs.v
theories/PropMapPipeline.v
theories/KvWorker.v
theories/KvWorkerProofs.v
theories/PropKvWorker.v
theories/FilesAsync.v
theories/FilesAsyncProofs.v
theories/PropFilesAsync.v
theories/FilesConc.v
theories/FilesConcProofs.v
theories/PropFilesConc.v
theories/OpenTrees.v
theories/OpenTreesProofs.v
theories/PropOpenTrees.v
theories/Derive.v
theories/DeriveProofs.v
theories/PropDerive.v
theories/Handshake.v
theories/PropHandshake.v
theories/ConcTx.v
theories/ConcTxSpec.v
theories/ConcTxProofs.v
theories/PropConcTx.v
theories/WasmWorker.v
theories/PropWasmWorker.v
theories/RemoteDocs.v
theories/RemoteDocsProofs.v
theories/PropRemoteDocs.v
theories/RemoteKv.v
theories/PropRemoteKv.v
theories/SerdeForm.v
theories/SerdeFormProofs.v
theories/PropSerde.v
theories/PropOldForms.v
theories/RemotePubSub.v
theories/RemotePubSubSpec.v
theories/RemotePubSubProofs.v
theories/PropRemotePubSub.v
theories/AsyncBuilders.v
theories/PropAsyncBuilders.v
theories/S3Keys.v
theories/S3KeysProofs.v
theories/PropS3Keys.v
theories/Acme.v
theories/PropAcme.v
theories/Cli.v
theories/PropCli.v
theories/Errors.v
theories/PropErrors.v
theories/SessionEq.v
theories/PropSessionEq.v
theories/ClientSession.v
theories/PropClientSession.v
theories/ClientBuilder.v
theories/PropClientBuilder.v
theories/Config.v
theories/PropConfig.v
theories/PropSequence.v
theories/PropCommute.v
