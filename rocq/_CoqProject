-Q theories Verif
theories/M_Across.v
theories/M_Adj.v
theories/M_Align.v
theories/M_Amr.v
theories/M_AmrRefine.v
theories/M_AmrTopo.v
theories/M_AmrTransfer.v
theories/M_Array.v
theories/M_ArrayOps.v
theories/M_Automaton.v
theories/M_Balance.v
theories/M_Base64.v
theories/M_Bipart.v
theories/M_Box.v
theories/M_BoxClass.v
theories/M_Build.v
theories/M_Cavs.v
theories/M_Choose.v
theories/M_Class.v
theories/M_CmdLine.v
theories/M_Coarsen.v
theories/M_Collapse.v
theories/M_Comm.v
theories/M_Dist.v
theories/M_File.v
theories/M_Flip.v
theories/M_Future.v
theories/M_Ghost.v
theories/M_Grammar.v
theories/M_Graph.v
theories/M_Hilbert.v
theories/M_Indset.v
theories/M_Int128.v
theories/M_Lanes.v
theories/M_Languages.v
theories/M_Lexer.v
theories/M_Linpart.v
theories/M_Map.v
theories/M_Mark.v
theories/M_Match.v
theories/M_MeshAdj.v
theories/M_Migrate.v
theories/M_Modify.v
theories/M_Nbx.v
theories/M_Owners.v
theories/M_Par.v
theories/M_Parents.v
theories/M_Parser.v
theories/M_Parting.v
theories/M_Path.v
theories/M_Pool.v
theories/M_Profile.v
theories/M_Recut.v
theories/M_Refine.v
theories/M_RefineMesh.v
theories/M_Remove.v
theories/M_Reorder.v
theories/M_Scan.v
theories/M_SharedAlloc.v
theories/M_Simplify.v
theories/M_Sort.v
theories/M_Swap2d.v
theories/M_Swap3d.v
theories/M_SwapTables.v
theories/M_Tags.v
theories/M_Template.v
theories/M_Transit.v
theories/M_Unique.v
theories/M_Unmap.v
theories/M_UnmapFamily.v
theories/M_Xml.v
theories/P_Across.v
theories/P_Adj.v
theories/P_Align.v
theories/P_Amr.v
theories/P_AmrRefine.v
theories/P_AmrRefine2.v
theories/P_AmrRefine3.v
theories/P_AmrTopo.v
theories/P_AmrTopo2.v
theories/P_AmrTransfer.v
theories/P_AmrTransfer2.v
theories/P_AmrTransfer3.v
theories/P_Array.v
theories/P_ArrayOps.v
theories/P_Automaton.v
theories/P_Automaton2.v
theories/P_Automaton3.v
theories/P_Automaton4.v
theories/P_Automaton5.v
theories/P_Automaton6.v
theories/P_Automaton7.v
theories/P_Balance.v
theories/P_Balance2.v
theories/P_Balance3.v
theories/P_Base64.v
theories/P_Bipart.v
theories/P_Box.v
theories/P_Box2.v
theories/P_Box3.v
theories/P_Box4.v
theories/P_BoxClass.v
theories/P_Build.v
theories/P_Cavs.v
theories/P_Cavs2.v
theories/P_Choice.v
theories/P_Choose1.v
theories/P_Choose2.v
theories/P_Choose3.v
theories/P_Class.v
theories/P_Class2.v
theories/P_Class3.v
theories/P_Class4.v
theories/P_Class5.v
theories/P_CmdLine1.v
theories/P_CmdLine2.v
theories/P_CmdLine3.v
theories/P_Coarsen.v
theories/P_Collapse1.v
theories/P_Collapse2.v
theories/P_Collapse3.v
theories/P_Collapse4.v
theories/P_Collapse5.v
theories/P_Collapse6.v
theories/P_Comm.v
theories/P_Cover.v
theories/P_Dead.v
theories/P_Dist.v
theories/P_Dist2.v
theories/P_Dist3.v
theories/P_Dist4.v
theories/P_Dist5.v
theories/P_Dist6.v
theories/P_Fan.v
theories/P_File.v
theories/P_File2.v
theories/P_File3.v
theories/P_File4.v
theories/P_File5.v
theories/P_Fill.v
theories/P_Flip1.v
theories/P_Flip2.v
theories/P_Flip3.v
theories/P_Flip4.v
theories/P_Flip5.v
theories/P_Future.v
theories/P_Ghost.v
theories/P_Ghost2.v
theories/P_Ghost3.v
theories/P_Ghost4.v
theories/P_Ghost5.v
theories/P_Ghost6.v
theories/P_Grammar.v
theories/P_Graph.v
theories/P_Graph2.v
theories/P_Grid.v
theories/P_Hilbert.v
theories/P_Hilbert2.v
theories/P_Hilbert3.v
theories/P_Hilbert4.v
theories/P_Indset.v
theories/P_Int128.v
theories/P_Invert.v
theories/P_Lanes.v
theories/P_Languages.v
theories/P_Lexer.v
theories/P_Lexer2.v
theories/P_Link.v
theories/P_Link2.v
theories/P_Linpart.v
theories/P_Loop.v
theories/P_Map.v
theories/P_Map2.v
theories/P_Mark.v
theories/P_Match.v
theories/P_MeshAdj.v
theories/P_MeshAdj2.v
theories/P_MeshAdj3.v
theories/P_MeshAdj4.v
theories/P_Migrate.v
theories/P_Migrate2.v
theories/P_Migrate3.v
theories/P_Migrate4.v
theories/P_Migrate5.v
theories/P_Migrate6.v
theories/P_Modify.v
theories/P_Modify2.v
theories/P_Nbx.v
theories/P_Nbx2.v
theories/P_Owners.v
theories/P_Owners2.v
theories/P_Par.v
theories/P_Parents.v
theories/P_Parents2.v
theories/P_Parser.v
theories/P_Parser2.v
theories/P_Parser3.v
theories/P_Parser4.v
theories/P_Parser5.v
theories/P_Parser6.v
theories/P_Parser7.v
theories/P_Parting.v
theories/P_Parting2.v
theories/P_Parting3.v
theories/P_Patch.v
theories/P_Path.v
theories/P_Pool.v
theories/P_Profile.v
theories/P_Profile2.v
theories/P_Profile3.v
theories/P_Reading.v
theories/P_Rebuild.v
theories/P_Rebuild2.v
theories/P_Rebuild3.v
theories/P_Recut1.v
theories/P_Recut2.v
theories/P_Recut3.v
theories/P_Recut4.v
theories/P_Recut5.v
theories/P_Recut6.v
theories/P_Refine.v
theories/P_RefineMesh1.v
theories/P_RefineMesh2.v
theories/P_RefineMesh3.v
theories/P_RefineMesh4.v
theories/P_RefineMesh5.v
theories/P_RefineMesh6.v
theories/P_RefineMesh7.v
theories/P_RefineMesh8.v
theories/P_RefineMesh9.v
theories/P_RefineVol.v
theories/P_Remove.v
theories/P_Renumber.v
theories/P_Reorder.v
theories/P_Reorder2.v
theories/P_Scan.v
theories/P_SharedAlloc.v
theories/P_SharedAlloc2.v
theories/P_Simplify.v
theories/P_Sort.v
theories/P_SortSmall.v
theories/P_Swap2d.v
theories/P_SwapKey.v
theories/P_SwapTables.v
theories/P_SwapTopo.v
theories/P_SwapVolume.v
theories/P_Tags.v
theories/P_Tags2.v
theories/P_Template.v
theories/P_Transit.v
theories/P_Unique.v
theories/P_Unmap.v
theories/P_Unmap2.v
theories/P_Unmap3.v
theories/P_UnmapFamily.v
theories/P_Xml.v
theories/Prelude.v
theories/S_Across.v
theories/S_Adj.v
theories/S_Align.v
theories/S_Amr.v
theories/S_AmrRefine.v
theories/S_AmrTopo.v
theories/S_AmrTransfer.v
theories/S_ArrayOps.v
theories/S_Automaton.v
theories/S_Balance.v
theories/S_Base64.v
theories/S_Bipart.v
theories/S_Box.v
theories/S_BoxClass.v
theories/S_Build.v
theories/S_Cavs.v
theories/S_Choose.v
theories/S_Class.v
theories/S_CmdLine.v
theories/S_Coarsen.v
theories/S_Collapse.v
theories/S_Dist.v
theories/S_Fan.v
theories/S_File.v
theories/S_Flip.v
theories/S_Future.v
theories/S_Ghost.v
theories/S_Grammar.v
theories/S_Graph.v
theories/S_Hilbert.v
theories/S_Indset.v
theories/S_Int128.v
theories/S_Lexer.v
theories/S_Linpart.v
theories/S_Map.v
theories/S_Mark.v
theories/S_Match.v
theories/S_MeshAdj.v
theories/S_Migrate.v
theories/S_Modify.v
theories/S_Nbx.v
theories/S_Owners.v
theories/S_Par.v
theories/S_Parents.v
theories/S_Parting.v
theories/S_Patch.v
theories/S_Pool.v
theories/S_Profile.v
theories/S_Rebuild.v
theories/S_Recut.v
theories/S_Refine.v
theories/S_RefineMesh.v
theories/S_Remove.v
theories/S_Reorder.v
theories/S_Scan.v
theories/S_SharedAlloc.v
theories/S_Simplify.v
theories/S_Sort.v
theories/S_Swap2d.v
theories/S_Swap3d.v
theories/S_SwapChoice.v
theories/S_SwapMesh.v
theories/S_Tags.v
theories/S_Template.v
theories/S_Transit.v
theories/S_Unique.v
theories/S_Unmap.v
theories/S_UnmapFamily.v
theories/S_Xml.v
theories/T_Across.v
theories/T_Adj.v
theories/T_Align.v
theories/T_Amr.v
theories/T_AmrRefine.v
theories/T_AmrTopo.v
theories/T_AmrTransfer.v
theories/T_ArrayOps.v
theories/T_Automaton.v
theories/T_Balance.v
theories/T_Base64.v
theories/T_Bipart.v
theories/T_Box.v
theories/T_BoxClass.v
theories/T_Build.v
theories/T_Cavs.v
theories/T_Choose.v
theories/T_Class.v
theories/T_CmdLine.v
theories/T_Coarsen.v
theories/T_Collapse.v
theories/T_Comm.v
theories/T_Dist.v
theories/T_Fan.v
theories/T_File.v
theories/T_Flip.v
theories/T_Ghost.v
theories/T_Graph.v
theories/T_Hilbert.v
theories/T_Indset.v
theories/T_Int128.v
theories/T_Invert.v
theories/T_Lexer.v
theories/T_Linpart.v
theories/T_Map.v
theories/T_Mark.v
theories/T_Match.v
theories/T_MeshAdj.v
theories/T_Migrate.v
theories/T_Modify.v
theories/T_Owners.v
theories/T_Par.v
theories/T_Parser.v
theories/T_Parting.v
theories/T_Path.v
theories/T_Pool.v
theories/T_Profile.v
theories/T_Rebuild.v
theories/T_Recut.v
theories/T_Refine.v
theories/T_RefineMesh.v
theories/T_Remove.v
theories/T_Reorder.v
theories/T_Scan.v
theories/T_SharedAlloc.v
theories/T_Simplify.v
theories/T_Sort.v
theories/T_Swap2d.v
theories/T_Swap3d.v
theories/T_Tags.v
theories/T_Template.v
theories/T_Transit.v
theories/T_Unique.v
theories/T_Unmap.v
theories/T_UnmapFamily.v
theories/T_Xml.v
theories/X_Amr.v
theories/X_AmrRefine.v
theories/X_AmrTopo.v
theories/X_AmrTransfer.v
theories/X_Automaton.v
theories/X_Balance.v
theories/X_Build.v
theories/X_Cavs.v
theories/X_Choose.v
theories/X_Class.v
theories/X_CmdLine.v
theories/X_Coarsen.v
theories/X_Collapse.v
theories/X_File.v
theories/X_Flip.v
theories/X_Ghost.v
theories/X_Indset.v
theories/X_MeshAdj.v
theories/X_Migrate.v
theories/X_Modify.v
theories/X_Parser.v
theories/X_Parting.v
theories/X_Recut.v
theories/X_Refine.v
theories/X_RefineMesh.v
theories/X_Reorder.v
theories/X_Simplify.v
theories/X_Swap3d.v
theories/X_Unmap.v
theories/X_UnmapFamily.v
