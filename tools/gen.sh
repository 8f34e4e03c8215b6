#!/bin/sh
# Regenerate all Props_*.v files.
cd "$(dirname "$0")/../rocq/theories" || exit 1
python3 ../../tools/genprops.py IdxTableFinal.v Props_IdxTable.v "IdxTableSpec IdxTableFinal" ../../tools/examples/IdxTable.in
python3 ../../tools/genprops.py TableNFinal.v Props_TableN.v "TableNSpec TableNFinal" ../../tools/examples/TableN.in
python3 ../../tools/genprops.py IPTableFinal.v Props_IPTable.v "IPTableSpec IPTableFinal" ../../tools/examples/IPTable.in
python3 ../../tools/genprops.py IdFinal.v Props_Id.v "IdSpec IdFinal" ../../tools/examples/Id.in
python3 ../../tools/genprops.py IdSetFinal.v Props_IdSet.v "IdSetSpec IdSetFinal" ../../tools/examples/IdSet.in
python3 ../../tools/genprops.py IdSetExactFinal.v Props_IdSetExact.v "IdSetSpec IdSetExactFinal" ../../tools/examples/IdSetExact.in
python3 ../../tools/genprops.py TreeFinal.v Props_Tree.v "TreeSpec TreeFinal" ../../tools/examples/Tree.in
python3 ../../tools/genprops.py GTreeFinal.v Props_GTree.v "GTreeSpec GTreeFinal TreeSpec GTreeSpec" ../../tools/examples/GTree.in
python3 ../../tools/genprops.py ConcFinal.v Props_Conc.v "TableConcSpec ConcFinal TableNModel" ../../tools/examples/Conc.in
python3 ../../tools/genprops.py GTreeConcFinal.v Props_GTreeConc.v "GTreeConcSpec GTreeConcFinal TreeSpec GTreeSpec" ../../tools/examples/GTreeConc.in
python3 ../../tools/genprops.py LabelFinal.v Props_Label.v "LabelSpec TableNSpec LabelFinal TreeSpec GTreeSpec TableNModel" ../../tools/examples/Label.in
python3 ../../tools/genprops.py Tree64Final.v Props_Tree64.v "TreeFinal GTreeFinal Tree64Final TreeSpec GTreeSpec Tree64Spec" ../../tools/examples/Tree64.in
python3 ../../tools/genprops.py TreeShapeFinal.v Props_TreeShape.v "TreeSpec TreeShapeSpec TreeShapeFinal" ../../tools/examples/TreeShape.in
python3 ../../tools/genprops.py TreePrintFinal.v Props_TreePrint.v "TreeFinal GTreeFinal TreePrintModel TreePrintFinal TreeShapeSpec TreeSpec GTreeSpec" ../../tools/examples/TreePrint.in
python3 ../../tools/genprops.py MainFinal.v Props_Main.v "GTreeFinal MainSpec MainFinal TreeSpec GTreeSpec" ../../tools/examples/Main.in
python3 ../../tools/genprops.py CloneFinal.v Props_Clone.v "GTreeFinal CloneFinal CloneSpec TreeSpec GTreeSpec Tree64Spec" ../../tools/examples/Clone.in
