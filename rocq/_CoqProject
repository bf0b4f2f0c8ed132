-Q theories Verif
theories/Result.v
theories/DOrder.v
theories/OrderTac.v
theories/IntervalModel.v
theories/IntervalSpec.v
theories/IntervalProofs.v
theories/IntervalArrayProofs.v
theories/IntervalGapProofs.v
theories/IntervalAndProofs.v
theories/IntervalSort.v
theories/IntervalGridModel.v
theories/IntervalGridProofs.v
theories/IntervalMisc.v
theories/IntervalProperties.v
theories/Vec.v
theories/VecProofs.v
theories/AngleModel.v
theories/AngleSpec.v
theories/AngleProofs.v
theories/AngleProofs2.v
theories/AngleProperties.v
theories/MatN.v
theories/InterpModel.v
theories/LogEuclidModel.v
theories/InterpSpec.v
theories/InterpProofs.v
theories/LogEuclidProofs.v
theories/InterpProperties.v
theories/Mat3.v
theories/RotModel.v
theories/RotSpec.v
theories/RotProofs.v
theories/RotProofs2.v
theories/RotProofs3.v
theories/RotProofs4.v
theories/RotProofs5.v
theories/RotProofs6.v
theories/RotProofs7.v
theories/RotProofs8.v
theories/RotProofs9.v
theories/RotProofs10.v
theories/RotProofs11.v
theories/RotProofs12.v
theories/RotProperties.v
theories/Mat4.v
theories/TransfModel.v
theories/TransfSpec.v
theories/TransfProofs.v
theories/TransfProofs2.v
theories/TransfProofs3.v
theories/TransfProperties.v
theories/Geo3Types.v
theories/Geo3Model.v
theories/Geo3Spec.v
theories/Geo3Proofs.v
theories/Geo3Proofs2.v
theories/Geo3Proofs3.v
theories/Geo3Properties.v
theories/GteModel.v
theories/GteSpec.v
theories/SphereModel.v
theories/SphereSpec.v
theories/ChordProofs.v
theories/SphereProofs.v
theories/GteProofs.v
theories/SphereProperties.v
theories/EllModel.v
theories/EllSpec.v
theories/EllProofs.v
theories/EllProofs2.v
theories/EllProofs3.v
theories/EllProofs4.v
theories/EllProperties.v
theories/CuboidModel.v
theories/CuboidSpec.v
theories/CuboidProofs.v
theories/CuboidProofs2.v
theories/CuboidProperties.v
theories/InterModel.v
theories/ConeModel.v
theories/ConeSpec.v
theories/ConeProofs.v
theories/ConeProofs2.v
theories/ConeProofs3.v
theories/ConeProofs4.v
theories/ConeProofs5.v
theories/ConeProofs6.v
theories/ConeProperties.v
theories/SolverModel.v
theories/SolverSpec.v
theories/SolverProofs.v
theories/SolverProofs2.v
theories/SolverProofs3.v
theories/SolverProofs4.v
theories/SolverProperties.v
theories/Geo2Model.v
theories/Geo2Spec.v
theories/Geo2Proofs.v
theories/Geo2Proofs2.v
theories/Geo2Properties.v
theories/Poly2Model.v
theories/Poly2Spec.v
theories/Poly2Proofs.v
theories/Poly2Proofs2.v
theories/Poly2Proofs3.v
theories/Poly2Ref.v
theories/Poly2Properties.v
theories/PyrModel.v
theories/PyrSpec.v
theories/PyrProofs.v
theories/PyrProofs2.v
theories/PyrProofs3.v
theories/PyrProofs4.v
theories/PyrProofs5.v
theories/PyrProperties.v
theories/CompModel.v
theories/CompSpec.v
theories/CompProofs.v
theories/CompProofs2.v
theories/CompProofs3.v
theories/CompProperties.v
theories/TextModel.v
theories/TextSpec.v
theories/TextProofs.v
theories/TextProofs2.v
theories/TextProofs3.v
theories/TextProofs4.v
theories/TextProofs5.v
theories/TextProperties.v
theories/FloatSpec.v
theories/FloatProofs.v
theories/FloatProofs2.v
theories/FloatModel.v
theories/FloatProofs3.v
theories/FloatProofs4.v
theories/FloatProofs5.v
theories/FloatProofs6.v
theories/FloatProofs7.v
theories/FloatProofs8.v
theories/FloatProofs9.v
theories/FloatProofs10.v
theories/FloatProperties.v
theories/TextProofs6.v
theories/NameModel.v
theories/NameSpec.v
theories/NameProofs.v
theories/NameProperties.v
theories/AccessModel.v
theories/AccessProofs.v
theories/AccessProperties.v
theories/MatrixSpec.v
theories/MatrixProofs.v
theories/MatrixProperties.v
theories/DispatchProofs.v
theories/DispatchProperties.v
theories/Geo64Model.v
theories/Geo64Spec.v
theories/Geo64Proofs.v
theories/Geo64Proofs2.v
theories/Geo64Proofs3.v
theories/Geo64Proofs4.v
theories/Geo64Proofs5.v
theories/Geo64Proofs6.v
theories/Geo64Proofs7.v
theories/Geo64Proofs8.v
theories/Geo64Properties.v
theories/Rot64Model.v
theories/Rot64Spec.v
theories/Rot64Proofs.v
theories/Rot64Proofs2.v
theories/Rot64Proofs3.v
theories/Rot64Proofs4.v
theories/Rot64Proofs5.v
theories/Rot64Proofs6.v
theories/Rot64Proofs7.v
theories/Rot64Proofs8.v
theories/Rot64Spec2.v
theories/Rot64Proofs9.v
theories/Rot64Proofs10.v
theories/Rot64Proofs11.v
theories/Rot64Proofs12.v
theories/Rot64Proofs13.v
theories/Rot64Proofs14.v
theories/Rot64Proofs15.v
theories/Rot64Proofs16.v
theories/Rot64Proofs17.v
theories/Rot64Properties.v
theories/Mat64Model.v
theories/Mat64Spec.v
theories/Mat64Proofs.v
theories/Mat64Proofs2.v
theories/Mat64Proofs3.v
theories/Mat64Properties.v
theories/Trf64Model.v
theories/Trf64Spec.v
theories/Trf64Proofs.v
theories/Trf64Proofs2.v
theories/Trf64Proofs3.v
theories/Trf64Proofs4.v
theories/Trf64Proofs5.v
theories/Trf64Proofs6.v
theories/Trf64Proofs7.v
theories/Trf64Proofs8.v
theories/Trf64Proofs9.v
theories/Trf64Proofs10.v
theories/Trf64Proofs11.v
theories/Trf64Properties.v
theories/Att64Model.v
theories/Att64Spec.v
theories/Att64Proofs.v
theories/Att64Proofs2.v
theories/Att64Proofs3.v
theories/Att64Proofs4.v
theories/Att64Proofs5.v
theories/Att64Proofs6.v
theories/Att64Proofs7.v
theories/Att64Proofs8.v
theories/Att64Proofs9.v
theories/Att64Proofs10.v
theories/Att64Properties.v
theories/Pow64Model.v
theories/Pow64Spec.v
theories/Pow64Proofs.v
theories/Pow64Proofs2.v
theories/Pow64Proofs3.v
theories/Pow64Proofs4.v
theories/Pow64Proofs5.v
theories/Pow64Proofs6.v
theories/Pow64Proofs7.v
theories/Pow64Properties.v
theories/Dif64Model.v
theories/Dif64Spec.v
theories/Dif64Proofs.v
theories/Dif64Proofs2.v
theories/Dif64Proofs3.v
theories/Dif64Proofs4.v
theories/Dif64Proofs5.v
theories/Dif64Properties.v
theories/Eul64Model.v
theories/Eul64Spec.v
theories/Eul64Proofs.v
theories/Eul64Proofs2.v
theories/Eul64Proofs3.v
theories/Eul64Proofs4.v
theories/Eul64Properties.v
theories/Rvm64Model.v
theories/Rvm64Spec.v
theories/Rvm64Proofs.v
theories/Rvm64Proofs2.v
theories/Rvm64Properties.v
theories/Cmp64Model.v
theories/Cmp64Proofs.v
theories/Cmp64Properties.v
theories/Nea64Model.v
theories/Nea64Proofs.v
theories/Nea64Properties.v
theories/Dst64Model.v
theories/Dst64Proofs.v
theories/Dst64Proofs2.v
theories/Dst64Properties.v
theories/Pln64Model.v
theories/Pln64Spec.v
theories/Pln64Proofs.v
theories/Pln64Proofs2.v
theories/Pln64Properties.v
theories/Lst64Model.v
theories/Lst64Proofs.v
theories/Lst64Properties.v
theories/Box64Model.v
theories/Box64Spec.v
theories/Box64Proofs.v
theories/Box64Properties.v
