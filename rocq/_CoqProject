-Q theories Verif
theories/Base.v
theories/Num.v
theories/Spec.v
theories/Tac.v
theories/Vec.v
theories/M_Area.v
theories/M_Bezier.v
theories/M_Bound.v
theories/M_Bspline.v
theories/M_Conic.v
theories/M_Curve2.v
theories/M_Curve3.v
theories/M_Curve4.v
theories/M_Fit.v
theories/M_Fit2.v
theories/M_Fit3.v
theories/M_Fit4.v
theories/M_FitConic.v
theories/M_Gauss.v
theories/M_Geom.v
theories/M_Interp.v
theories/M_Knots.v
theories/M_MathUtils.v
theories/M_Matrix.v
theories/M_Mesh.v
theories/M_NurbsCurve.v
theories/M_Octree.v
theories/M_Offset.v
theories/M_Polynomials.v
theories/M_Shape.v
theories/M_Surface.v
theories/M_Surface2.v
theories/M_Volume.v
theories/M_XYZ.v
theories/P_Area.v
theories/P_Area2.v
theories/P_Basis.v
theories/P_Bern.v
theories/P_Bezier.v
theories/P_Blossom.v
theories/P_Bound.v
theories/P_Bound2.v
theories/P_Bound3.v
theories/P_Bound4.v
theories/P_Bspline.v
theories/P_BsplineS.v
theories/P_CanDeriv.v
theories/P_Conic.v
theories/P_Conic2.v
theories/P_Constr.v
theories/P_Coons.v
theories/P_Cox.v
theories/P_Curve.v
theories/P_Decomp.v
theories/P_Deriv.v
theories/P_Ders.v
theories/P_Ders1.v
theories/P_Elevate.v
theories/P_Ends.v
theories/P_Ends2.v
theories/P_Excess.v
theories/P_Extend.v
theories/P_Extend2.v
theories/P_Extract.v
theories/P_Fit.v
theories/P_FitConic.v
theories/P_FitConic2.v
theories/P_FitCubic.v
theories/P_Gauss.v
theories/P_Gauss2.v
theories/P_Gauss3.v
theories/P_Geom.v
theories/P_Hermite.v
theories/P_Insert.v
theories/P_Insert2.v
theories/P_Insert3.v
theories/P_Interp.v
theories/P_Interp2.v
theories/P_Knn.v
theories/P_KnotMap.v
theories/P_KnotMap2.v
theories/P_Length.v
theories/P_Length2.v
theories/P_Local.v
theories/P_Loft.v
theories/P_Loop.v
theories/P_Ls.v
theories/P_Ls2.v
theories/P_Ls3.v
theories/P_Ls4.v
theories/P_Lsq.v
theories/P_Lsq2.v
theories/P_Lsq3.v
theories/P_Lsq4.v
theories/P_Lsq5.v
theories/P_Lsq6.v
theories/P_Make.v
theories/P_Math2.v
theories/P_MathUtils.v
theories/P_Matrix.v
theories/P_Merge.v
theories/P_Mesh.v
theories/P_Mesh2.v
theories/P_Mesh3.v
theories/P_Mesh4.v
theories/P_Neigh.v
theories/P_Nurbs.v
theories/P_OctSearch.v
theories/P_OctTop.v
theories/P_Octree.v
theories/P_Offset.v
theories/P_Offset2.v
theories/P_Offset3.v
theories/P_OneBasis.v
theories/P_ParamAll.v
theories/P_ParamOn.v
theories/P_Periodic.v
theories/P_PolarElev.v
theories/P_Power.v
theories/P_ProjNorm.v
theories/P_ProjNorm2.v
theories/P_RSurf.v
theories/P_RSurf2.v
theories/P_Reduce.v
theories/P_Reduce2.v
theories/P_Refine.v
theories/P_Remove.v
theories/P_Remove2.v
theories/P_Reparam.v
theories/P_Reverse.v
theories/P_Revolve.v
theories/P_Ruled.v
theories/P_SDec.v
theories/P_SDec2.v
theories/P_SW.v
theories/P_Shape.v
theories/P_Shape2.v
theories/P_Shape3.v
theories/P_Shape4.v
theories/P_Span.v
theories/P_Split.v
theories/P_Surf3.v
theories/P_Surf4.v
theories/P_Surf5.v
theories/P_Surf6.v
theories/P_Surf7.v
theories/P_Surf8.v
theories/P_Surface.v
theories/P_Surface2.v
theories/P_Swung.v
theories/P_Tess.v
theories/P_Unclamp.v
theories/P_VSum.v
theories/P_Vec.v
theories/P_Vol1.v
theories/P_Vol2.v
theories/P_Vol3.v
theories/P_Vol4.v
theories/P_Vol5.v
theories/P_XYZ.v
theories/Check1.v
theories/Properties1.v
theories/Properties10.v
theories/Properties11.v
theories/Properties12.v
theories/Properties13.v
theories/Properties14.v
theories/Properties15.v
theories/Properties16.v
theories/Properties17.v
theories/Properties18.v
theories/Properties19.v
theories/Properties2.v
theories/Properties20.v
theories/Properties21.v
theories/Properties22.v
theories/Properties23.v
theories/Properties24.v
theories/Properties25.v
theories/Properties26.v
theories/Properties27.v
theories/Properties28.v
theories/Properties29.v
theories/Properties3.v
theories/Properties30.v
theories/Properties31.v
theories/Properties32.v
theories/Properties33.v
theories/Properties34.v
theories/Properties35.v
theories/Properties36.v
theories/Properties37.v
theories/Properties38.v
theories/Properties4.v
theories/Properties5.v
theories/Properties6.v
theories/Properties7.v
theories/Properties8.v
theories/Properties9.v
theories/Spec10.v
theories/Spec11.v
theories/Spec12.v
theories/Spec13.v
theories/Spec14.v
theories/Spec15.v
theories/Spec16.v
theories/Spec17.v
theories/Spec18.v
theories/Spec19.v
theories/Spec2.v
theories/Spec20.v
theories/Spec21.v
theories/Spec22.v
theories/Spec23.v
theories/Spec24.v
theories/Spec25.v
theories/Spec26.v
theories/Spec27.v
theories/Spec3.v
theories/Spec4.v
theories/Spec5.v
theories/Spec6.v
theories/Spec7.v
theories/Spec8.v
theories/Spec9.v
