-Q theories Verif
theories/ListLib.v
theories/ItemClass.v
theories/Outcome.v
theories/Digraph.v
theories/Bfs.v
theories/TreeView.v
theories/GraphModel.v
theories/GraphOps.v
theories/GraphWf.v
theories/GraphStep.v
theories/SpecStore.v
theories/SpecObs.v
theories/GraphStore.v
theories/GraphRefine.v
theories/GraphThms.v
theories/GraphThms2.v
theories/GraphEmit.v
theories/SpecWalk.v
theories/WalkThms.v
theories/BfsThms.v
theories/BfsFind.v
theories/SpecSearch.v
theories/GraphSearch.v
theories/SpecTree.v
theories/BuildThms.v
theories/SyncThms.v
theories/SpecView.v
theories/ViewStep.v
theories/ViewSync.v
theories/ViewRun.v
theories/ViewFollow.v
theories/VisitThms.v
theories/RemoveThms.v
theories/ViewRemove.v
theories/SpecCross.v
theories/CrossThms.v
theories/ViewCross.v
theories/TransformModel.v
theories/SpecTransform.v
theories/TransformThms.v
theories/TransformView.v
theories/PublisherModel.v
theories/SpecPublish.v
theories/PublishThms.v
theories/PublishThms2.v
theories/BoxModel.v
theories/SpecBox.v
theories/BoxThms.v
theories/SpecReplica.v
theories/QueueModel.v
theories/SpecQueue.v
theories/QueueThms.v
theories/DispatcherModel.v
theories/SpecDispatch.v
theories/DispatchThms.v
theories/BufferModel.v
theories/SpecBuffer.v
theories/BufferThms.v
theories/MiscModel.v
theories/SpecMisc.v
theories/MiscThms.v
theories/ItemsModel.v
theories/SpecItems.v
theories/ItemsData.v
theories/ItemsOps.v
theories/GraphCopy.v
theories/ItemsLog.v
theories/ItemsCopy.v
theories/ItemsThms.v
theories/ItemsPublish.v
theories/CopyModel.v
theories/CopyThms.v
theories/PathModel.v
theories/SpecPath.v
theories/PathThms.v
theories/SerialModel.v
theories/SpecSerial.v
theories/SerialThms.v
theories/GraphLoad.v
theories/LockModel.v
theories/SpecLock.v
theories/LockThms.v
theories/LockReach.v
theories/ViewObjModel.v
theories/SpecViewObj.v
theories/ViewObjThms.v
theories/HandlerModel.v
theories/SpecHandler.v
theories/HandlerThms.v
theories/SpecFollow.v
theories/FollowThms.v
theories/RoamModel.v
theories/SpecRoam.v
theories/RoamThms.v
theories/SpecRank.v
theories/RankThms.v
theories/ItemHandlerModel.v
theories/SpecItemHandler.v
theories/ItemHandlerThms.v
theories/VizModel.v
theories/SpecViz.v
theories/VizThms.v
theories/DrawModel.v
theories/SpecDraw.v
theories/DrawThms.v
theories/ArchiveModel.v
theories/SpecArchive.v
theories/ArchiveThms.v
theories/RegistryModel.v
theories/SpecDemand.v
theories/DemandThms.v
theories/RegistryThms.v
theories/WidgetModel.v
theories/SpecWidget.v
theories/WidgetThms.v
theories/WidgetDraw.v
theories/SpecSketch.v
theories/SketchThms.v
theories/AccessModel.v
theories/SpecAccess.v
theories/AccessThms.v
theories/CreateModel.v
theories/SpecCreate.v
theories/CreateThms.v
theories/HandleThms.v
theories/UuidModel.v
theories/SpecUuid.v
theories/UuidThms.v
theories/SlotModel.v
theories/SpecSlot.v
theories/SlotThms.v
theories/SlotThms2.v
theories/ViewLifeThms.v
theories/SpecDesc.v
theories/DescThms.v
theories/IterModel.v
theories/SpecIter.v
theories/IterThms.v
theories/ActModel.v
theories/SpecAct.v
theories/ActThms.v
theories/ActQuiet.v
theories/ActMore.v
theories/SpecActProg.v
theories/ActProg.v
theories/AssignModel.v
theories/SpecAssign.v
theories/AssignThms.v
theories/AssignApart.v
theories/AssignSubs.v
theories/AssignCopy.v
theories/VisitModel.v
theories/SpecVisit.v
theories/VisitLoop.v
theories/VisitItemsModel.v
theories/SpecVisitItems.v
theories/VisitItemsThms.v
theories/ItemValueModel.v
theories/SpecItemValue.v
theories/ItemValueThms.v
theories/VisitViewModel.v
theories/SpecVisitView.v
theories/VisitViewThms.v
theories/RenameModel.v
theories/SpecRename.v
theories/RenameThms.v
theories/SpecVisitOrder.v
theories/VisitOrder.v
theories/IdentityModel.v
theories/SpecIdentity.v
theories/IdentityThms.v
theories/TfAlgebra.v
theories/ExGraph.v
theories/ExView.v
theories/P_Graph.v
theories/P_Search.v
theories/P_View.v
theories/ExTransform.v
theories/P_Transform.v
theories/ExPublish.v
theories/P_Publish.v
theories/ExBox.v
theories/P_Box.v
theories/ExQueue.v
theories/P_Queue.v
theories/P_Dispatch.v
theories/P_Buffer.v
theories/P_Misc.v
theories/ExItems.v
theories/P_Items.v
theories/ExPath.v
theories/P_Path.v
theories/ExSerial.v
theories/P_Serial.v
theories/ExLock.v
theories/P_Lock.v
theories/P_ViewObj.v
theories/ExHandler.v
theories/P_Handler.v
theories/ExFollow.v
theories/P_Follow.v
theories/ExRoam.v
theories/P_Roam.v
theories/P_Rank.v
theories/ExItemHandler.v
theories/P_ItemHandler.v
theories/ExViz.v
theories/P_Viz.v
theories/ExDraw.v
theories/P_Draw.v
theories/ExArchive.v
theories/P_Archive.v
theories/ExRegistry.v
theories/P_Registry.v
theories/ExWidget.v
theories/P_Widget.v
theories/ExAccess.v
theories/P_Access.v
theories/ExCreate.v
theories/P_Create.v
theories/P_Uuid.v
theories/P_Slot.v
theories/P_ViewLife.v
theories/ExDesc.v
theories/P_Desc.v
theories/P_Iter.v
theories/ExAct.v
theories/P_Act.v
theories/P_ActProg.v
theories/ExAssign.v
theories/P_Assign.v
theories/P_Visit.v
theories/P_VisitItems.v
theories/ExItemValue.v
theories/P_ItemValue.v
theories/P_VisitView.v
theories/P_Rename.v
theories/P_VisitOrder.v
theories/ExIdentity.v
theories/P_Identity.v
theories/P_TfAlgebra.v
