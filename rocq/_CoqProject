-Q theories Verif
theories/Arith.v
theories/ArithR.v
theories/ArithF64.v
theories/Prim.v
theories/Path.v
theories/Gcode.v
theories/GcodeSpec.v
theories/GcodeInstr.v
theories/GcodeClaims.v
theories/GcodeText.v
theories/GcodeProofs.v
theories/GcodeInv.v
theories/TextOK.v
theories/F64Facts.v
theories/GcodeProofs2.v
theories/GcodeProofs3.v
theories/GcodeProofs4.v
theories/GcodeProofs5.v
theories/GcodeReal.v
theories/GcodeFloat.v
theories/Properties_Gcode.v
theories/PathClaims.v
theories/JoinProofs.v
theories/MinProofs.v
theories/GeomSpec.v
theories/GeomProofs.v
theories/AreaProofs.v
theories/MeshProofs.v
theories/Properties_Path.v
theories/Properties_Geom.v
theories/Helpers.v
theories/HelperClaims.v
theories/HelperProofs.v
theories/HelperProofs2.v
theories/Properties_Helpers.v
theories/Slicer.v
theories/SlicerClaims.v
theories/SlicerProofs.v
theories/SlicerProofs2.v
theories/SlicerFloat.v
theories/Par.v
theories/ParProofs.v
theories/Properties_Slicer.v
theories/Stl.v
theories/StlClaims.v
theories/StlProofs.v
theories/StlProofs2.v
theories/StlProofs3.v
theories/Properties_Stl.v
theories/Fill.v
theories/FillClaims.v
theories/FillProofs.v
theories/FillProofs2.v
theories/FillProofs3.v
theories/Properties_Fill.v
theories/Vip.v
theories/VipClaims.v
theories/VipProofs.v
theories/VipReal.v
theories/VipText.v
theories/VipMore.v
theories/VipFloat.v
theories/Properties_Vip.v
theories/Examples_Vip.v
theories/Main.v
theories/MainClaims.v
theories/TemplateProofs.v
theories/MainProofs.v
theories/Properties_Main.v
theories/ClosedClaims.v
theories/JoinClosed.v
theories/JoinClosed2.v
theories/Watertight.v
theories/Properties_Closed.v
theories/ElemT.v
theories/ToolProofs.v
theories/Properties_Tools.v
theories/AnalyzeClaims.v
theories/Properties_Analyze.v
theories/ProfileProofs.v
theories/Properties_Profile.v
theories/WhereClaims.v
theories/WhereProofs.v
theories/Properties_Where.v
theories/Properties_Flags.v
theories/OverhangClaims.v
theories/OverhangProofs.v
theories/Properties_Overhang.v
theories/CutClaims.v
theories/CutProofs.v
theories/Properties_Cut.v
theories/Examples_Cut.v
theories/OffsetClaims.v
theories/OffsetProofs.v
theories/Properties_Offset.v
theories/SupportClaims.v
theories/SupportProofs.v
theories/Properties_Support.v
theories/MeetProofs.v
theories/Properties_Meet.v
theories/InsideClaims.v
theories/InsideProofs.v
theories/Properties_Inside.v
theories/FillInsideProofs.v
theories/Properties_FillInside.v
theories/SolidClaims.v
theories/SolidProofs.v
theories/SolidProofs2.v
theories/Properties_Solid.v
theories/Properties_Print.v
theories/FloatGeom.v
theories/FloatClaims.v
theories/FloatSlice.v
theories/FloatFill.v
theories/Properties_Float.v
theories/SidesProofs.v
theories/LevelProofs.v
theories/Properties_Sides.v
theories/Properties_Reads.v
theories/Properties_Tilted.v
theories/Properties_Tilted2.v
theories/Properties_Opposite.v
theories/Properties_FillTurn.v
theories/Properties_Spacing.v
theories/Properties_Spacing2.v
theories/Properties_Sections.v
