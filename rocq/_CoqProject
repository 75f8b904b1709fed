-Q theories Verif
theories/Machine.v
theories/MachineLemmas.v
theories/S_Words.v
theories/L_Words.v
theories/M_TensorKey.v
theories/L_TensorKey.v
theories/M_TensorBasis.v
theories/M_Scalar.v
theories/M_Vector.v
theories/M_Dense.v
theories/M_Deref.v
theories/S_Vector.v
theories/M_Algebra.v
theories/M_FreeTensor.v
theories/S_Tensor.v
theories/S_Series.v
theories/I_Scalars.v
theories/L_Dense.v
theories/L_Ring.v
theories/S_TensorApi.v
theories/L_TensorBasis.v
theories/L_BasisIter.v
theories/L_Debug.v
theories/L_Algebra.v
theories/L_Conv.v
theories/L_Series.v
theories/L_PropKey.v
theories/L_PropBasis.v
theories/L_PropDense.v
theories/L_PropHistory.v
theories/L_PropAlgebra.v
theories/L_PropProducts.v
theories/L_Inplace.v
theories/L_PropInplace.v
theories/S_FreeTensor.v
theories/I_FunAlgebra.v
theories/L_FreeTensor.v
theories/L_ExactAlgebra.v
theories/L_PropFreeTensor.v
theories/M_Display.v
theories/L_PropSafe.v
theories/P_Key.v
theories/P_Basis.v
theories/P_Dense.v
theories/P_History.v
theories/P_Safe.v
theories/P_Algebra.v
theories/P_Products.v
theories/P_Inplace.v
theories/P_FreeTensor.v
theories/T_UnitTests.v
theories/T_UnitTestsDense.v
theories/M_Sparse.v
theories/S_Sparse.v
theories/L_Sparse.v
theories/L_PropSparse.v
theories/P_Sparse.v
theories/M_DegreeRange.v
theories/S_Hall.v
theories/L_Moebius.v
theories/L_HallSize.v
theories/L_HallSums.v
theories/L_HallMap.v
theories/L_HallWrap.v
theories/L_PropHallSize.v
theories/P_HallSize.v
theories/T_UnitTestsHall.v
theories/M_HallKey.v
theories/M_HallSet.v
theories/L_HallKey.v
theories/L_HallSet.v
theories/L_PropHall.v
theories/P_Hall.v
theories/M_Float.v
theories/S_Float.v
theories/L_Float.v
theories/L_FloatDegree.v
theories/L_FloatInt.v
theories/L_FloatRound.v
theories/L_FloatOps.v
theories/L_FloatUnique.v
theories/L_FloatSum.v
theories/L_PropFloat.v
theories/L_PropRound.v
theories/P_Float.v
theories/P_Round.v
theories/L_InplaceWrap.v
theories/L_PropWrap.v
theories/P_Wrap.v
theories/M_Slices.v
theories/S_Slices.v
theories/L_PropSlices.v
theories/P_Slices.v
theories/M_AlgebraFn.v
theories/S_AlgebraFn.v
theories/L_AlgebraFn.v
theories/L_PropClosures.v
theories/P_Closures.v
theories/L_ExpGroup.v
theories/L_PropExp.v
theories/P_Exp.v
theories/L_PropFloatEq.v
theories/P_FloatEq.v
theories/S_SparseHist.v
theories/L_PropSparseHist.v
theories/P_SparseHist.v
theories/M_Errors.v
theories/S_Errors.v
theories/L_PropErrors.v
theories/P_Errors.v
theories/S_Shuffle.v
theories/S_Lie.v
theories/L_Shuffle.v
theories/L_ShuffleExp.v
theories/L_PropShuffle.v
theories/P_Shuffle.v
theories/S_Degree.v
theories/L_DegreeWrap.v
theories/L_PropDegree.v
theories/P_Degree.v
theories/S_KeyRaw.v
theories/L_KeyRaw.v
theories/L_PropKeyRaw.v
theories/P_KeyRaw.v
theories/M_AlgebraTrait.v
theories/S_AlgebraTrait.v
theories/L_PropAlgebraTrait.v
theories/P_AlgebraTrait.v
theories/L_IndexKey.v
theories/L_PropIndexKey.v
theories/P_IndexKey.v
theories/S_IterKeys.v
theories/L_IterKeys.v
theories/L_PropIterKeys.v
theories/P_IterKeys.v
theories/L_NextKey.v
theories/L_PropNextKey.v
theories/P_NextKey.v
theories/L_PropCommFloat.v
theories/P_CommFloat.v
theories/S_TensorProg.v
theories/L_PropTensorProg.v
theories/P_TensorProg.v
theories/L_PropKeyIndex.v
theories/P_KeyIndex.v
theories/L_PropSizeField.v
theories/P_SizeField.v
theories/E_Tac.v
theories/E_Key.v
theories/E_Basis.v
theories/E_Algebra.v
theories/E_Dense.v
theories/E_Float.v
theories/E_Sparse.v
theories/E_Hall.v
theories/E_Shuffle.v
theories/S_ProgSteps.v
theories/L_ProgSteps.v
theories/L_ProgRel.v
theories/L_ProgError.v
theories/L_ProgInt.v
theories/L_PropProgFloat.v
theories/P_ProgFloat.v
theories/E_ProgFloat.v
theories/S_SparseDense.v
theories/L_PropSparseDense.v
theories/P_SparseDense.v
theories/E_SparseDense.v
theories/S_Borrow.v
theories/L_PropBorrow.v
theories/P_Borrow.v
theories/E_Borrow.v
theories/M_HallLock.v
theories/S_HallLock.v
theories/L_PropHallLock.v
theories/P_HallLock.v
theories/E_HallLock.v
theories/S_Eval.v
theories/I_Matrix.v
theories/L_Eval.v
theories/L_PropEval.v
theories/P_Eval.v
theories/E_Eval.v
theories/S_Param.v
theories/I_Dual.v
theories/L_PropParam.v
theories/P_Param.v
theories/E_Param.v
theories/S_Symmetry.v
theories/L_PropSymmetry.v
theories/P_Symmetry.v
theories/E_Symmetry.v
theories/S_ParamSparse.v
theories/L_PropParamSparse.v
theories/P_ParamSparse.v
theories/E_ParamSparse.v
theories/S_Local.v
theories/L_PropLocal.v
theories/P_Local.v
theories/E_Local.v
theories/S_Builds.v
theories/L_Builds.v
theories/L_PropBuilds.v
theories/P_Builds.v
theories/E_Builds.v
theories/S_Antipode.v
theories/L_Antipode.v
theories/L_PropAntipode.v
theories/P_Antipode.v
theories/E_Antipode.v
theories/L_Units.v
theories/L_PropUnits.v
theories/P_Units.v
theories/E_Units.v
theories/S_Dynkin.v
theories/L_Dynkin.v
theories/L_PropDynkin.v
theories/P_Dynkin.v
theories/E_Dynkin.v
theories/S_Lyndon.v
theories/L_Lyndon.v
theories/L_LyndonLie.v
theories/L_LyndonBasis.v
theories/L_LyndonCount.v
theories/L_PropLyndon.v
theories/P_Lyndon.v
theories/E_Lyndon.v
theories/S_Rotation.v
theories/L_Rotation.v
theories/L_PropRotation.v
theories/P_Rotation.v
theories/E_Rotation.v
theories/S_Recursion.v
theories/L_PropRecursion.v
theories/P_Recursion.v
theories/E_Recursion.v
