-Q theories Verif
theories/GoBase.v
theories/IdxTableModel.v
theories/IdxTableSpec.v
theories/IdxTableProofs.v
theories/IdxTableFinal.v
theories/Props_IdxTable.v
theories/TreeEntry.v
theories/TableNModel.v
theories/TableNSpec.v
theories/TableNProofs.v
theories/TableNFinal.v
theories/Props_TableN.v
theories/IPTableModel.v
theories/IPTableSpec.v
theories/IPTableProofs.v
theories/IPTableFinal.v
theories/Props_IPTable.v
theories/IdModel.v
theories/IdSetModel.v
theories/IdSpec.v
theories/IdProofs.v
theories/IdFinal.v
theories/Props_Id.v
theories/IdSetSpec.v
theories/IdSetProofs.v
theories/IdSetFinal.v
theories/Props_IdSet.v
theories/IdSetExact.v
theories/IdSetExactFinal.v
theories/Props_IdSetExact.v
theories/TreeModel.v
theories/TreeSpec.v
theories/TreeBits.v
theories/TreeGhost.v
theories/TreeHeap.v
theories/TreeAdd.v
theories/TreeIns.v
theories/TreeInv.v
theories/TreeDel.v
theories/TreeDelete.v
theories/TreeIter.v
theories/TreeVals.v
theories/TreeMain.v
theories/TreeFinal.v
theories/Props_Tree.v
theories/GTreeModel.v
theories/GTreeSpec.v
theories/GTreeLoop.v
theories/GTreeProofs.v
theories/GTreeFinal.v
theories/TreePrintModel.v
theories/TreePrintProofs.v
theories/TreePrintFinal.v
theories/Props_GTree.v
theories/TreeSim.v
theories/Tree64Spec.v
theories/Tree64Proofs.v
theories/GTree64Proofs.v
theories/Tree64Final.v
theories/Props_Tree64.v
theories/TreeShapeSpec.v
theories/TreeShape.v
theories/TreeShapeIter.v
theories/TreeShapeFinal.v
theories/Props_TreeShape.v
theories/ConcModel.v
theories/ConcSpec.v
theories/ConcProofs.v
theories/ConcPrune.v
theories/ConcRuns.v
theories/ConcLin.v
theories/ConcLocks.v
theories/ConcStable.v
theories/ConcTimed.v
theories/IdxConcModel.v
theories/IdxConcSpec.v
theories/IdxConcProofs.v
theories/TableConcModel.v
theories/TableConcSpec.v
theories/TableConcProofs.v
theories/TableTimedProofs.v
theories/TableLinProofs.v
theories/ConcFinal.v
theories/Props_Conc.v
theories/GTreeConcModel.v
theories/GTreeConcSpec.v
theories/GTreeConcProofs.v
theories/GTreeConcLog.v
theories/GTreeConcOver.v
theories/GTreeConcRelease.v
theories/GTreeConcFinal.v
theories/Props_GTreeConc.v
theories/LabelModel.v
theories/LabelSpec.v
theories/LabelFinal.v
theories/Props_Label.v
theories/Props_TreePrint.v
theories/MainModel.v
theories/MainSpec.v
theories/MainFinal.v
theories/Props_Main.v
theories/CloneModel.v
theories/CloneSpec.v
theories/CloneFinal.v
theories/Props_Clone.v
theories/RepoTests.v
