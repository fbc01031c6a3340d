-Q theories Verif
theories/Prelude.v
theories/Utf8.v
theories/Proto.v
theories/Files.v
theories/Server.v
theories/PropTransport.v
theories/Cuds.v
theories/CudsProofs.v
theories/PropCuds.v
theories/Traverse.v
theories/PropTraverse.v
theories/Onto.v
theories/Inverse.v
theories/PropOnto.v
theories/Install.v
theories/PropInstall.v
theories/QueryResult.v
theories/PropQuery.v
theories/Text.v
theories/Datatype.v
theories/PropDatatype.v
theories/SqlUtil.v
theories/PropSqlUtil.v
theories/Wrapper.v
theories/WrapperProofs.v
theories/WrapperRefine.v
theories/WrapperOps.v
theories/WrapperOps2.v
theories/WrapperCommit.v
theories/PropWrapper.v
theories/PropCommit.v
theories/Uuid.v
theories/PropUuid.v
theories/Names.v
theories/PropNames.v
theories/Namespace.v
theories/PropNamespace.v
theories/Validator.v
theories/PropValidator.v
theories/Schema.v
theories/PropSchema.v
theories/Serial.v
theories/PropSerial.v
theories/Buffers.v
theories/PropBuffers.v
theories/OClass.v
theories/PropOClass.v
theories/Sql.v
theories/PropSql.v
theories/Migrate.v
theories/PropMigrate.v
theories/CudsX.v
theories/CudsXProofs.v
theories/CudsXStep.v
theories/CudsXLoop.v
theories/PropCross.v
theories/Utils.v
theories/PropUtils.v
theories/Print.v
theories/PrintProofs.v
theories/DotProofs.v
theories/PropPrint.v
theories/Sim.v
theories/PropSim.v
theories/Uri.v
theories/PropUri.v
theories/Yml.v
theories/YmlProofs.v
theories/YmlSpec.v
theories/YmlLink.v
theories/YmlTerm.v
theories/YmlTop.v
theories/PropYml.v
theories/Owl.v
theories/PropOwl.v
theories/Export.v
theories/PropExport.v
theories/LoadClass.v
theories/PropLoadClass.v
theories/WrapperFind.v
theories/FullGraph.v
theories/PropFullGraph.v
theories/Remote.v
theories/RemoteServer.v
theories/RemoteClient.v
theories/RemoteOps.v
theories/RemoteOps2.v
theories/RemoteCommit.v
theories/RemoteInit.v
theories/PropRemote.v
theories/Shared.v
theories/PropShared.v
theories/Camel.v
theories/CamelProofs.v
theories/PropCamel.v
theories/WrapDev.v
theories/PropWrapDev.v
theories/SqlRead.v
theories/SqlText.v
theories/SqlTextProofs.v
theories/PropSqlText.v
theories/SqlStore.v
theories/PropSqlStore.v
theories/SqlTriple.v
theories/PropSqlTriple.v
theories/OntoDot.v
theories/PropOntoDot.v
theories/SqlSession.v
theories/PropSqlSession.v
theories/Registry.v
theories/PropRegistry.v
theories/Neighbors.v
theories/PropNeighbors.v
theories/Equal.v
theories/PropEqual.v
theories/TraversePaths.v
theories/PropDepth.v
theories/WrapperFirst.v
theories/PropRefresh.v
theories/RefreshMany.v
theories/PropRefreshMany.v
theories/PropReceive.v
theories/Dummy.v
theories/PropDummy.v
theories/Construct.v
theories/PropConstruct.v
