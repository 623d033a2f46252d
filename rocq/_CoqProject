-Q theories Verif
theories/Base.v
theories/Model_Vec.v
theories/Model_Reorg.v
theories/Spec.v
theories/Proof_Base.v
theories/Proof_Vec.v
theories/Proof_Reorg.v
theories/Proof_Pad.v
theories/Proof_PadB.v
theories/Proof_Split.v
theories/Nums.v
theories/Proof_Conv.v
theories/Props_Vec.v
theories/Proof_Merge.v
theories/Proof_ReorgMore.v
theories/Proof_ReorgDiff.v
theories/Spec_Outside.v
theories/Proof_Outside.v
theories/Props_Reorg.v
theories/Model_Chunk.v
theories/Spec_Par.v
theories/Proof_Chunk.v
theories/Model_F64.v
theories/Proof_F64.v
theories/Model_Simd.v
theories/Model_Elem.v
theories/Proof_Simd.v
theories/Proof_SimdOps.v
theories/Proof_Elem.v
theories/Proof_ElemOps.v
theories/Props_Par.v
theories/Model_Sum.v
theories/Spec_Sum.v
theories/Proof_Sum.v
theories/Model_Float.v
theories/Model_Stats.v
theories/Spec_Stats.v
theories/Proof_Stats.v
theories/Proof_StatsOps.v
theories/Proof_Dot.v
theories/Proof_Map.v
theories/Model_Complex.v
theories/Model_Real.v
theories/Spec_Complex.v
theories/Proof_Complex.v
theories/Proof_ComplexOps.v
theories/Proof_ComplexSet.v
theories/Proof_ComplexMath.v
theories/Proof_ComplexRound.v
theories/NumsFlt.v
theories/Proof_OutsideStats.v
theories/Props_Stats.v
theories/NumsR.v
theories/Spec_Real.v
theories/Proof_Real.v
theories/Props_Complex.v
theories/Model_Window.v
theories/NumsTrig.v
theories/Spec_Window.v
theories/Proof_Pairs.v
theories/Proof_Window.v
theories/Proof_Response.v
theories/Proof_WindowR.v
theories/Props_Window.v
theories/Model_Convolve.v
theories/Spec_Convolve.v
theories/Spec_ConvFn.v
theories/Proof_Convolve.v
theories/Proof_ConvSimd.v
theories/Proof_ConvSimdOps.v
theories/Model_Fft.v
theories/Spec_Fft.v
theories/Proof_Dft.v
theories/Proof_Fft.v
theories/Proof_FftR.v
theories/Proof_Corr.v
theories/Proof_CorrV.v
theories/Proof_Mirror.v
theories/Proof_Sfft.v
theories/Proof_SfftR.v
theories/Proof_FftMore.v
theories/Proof_SifftExact.v
theories/Props_Fft.v
theories/Model_Overlap.v
theories/Proof_Overlap.v
theories/Proof_OverlapV.v
theories/Proof_ConvFn.v
theories/Model_Matrix.v
theories/Spec_Matrix.v
theories/Proof_MatConv.v
theories/Props_Convolve.v
theories/Model_Interp.v
theories/Spec_Interp.v
theories/Proof_Decimate.v
theories/Proof_Interp.v
theories/Proof_Lut.v
theories/Proof_LutOps.v
theories/Props_Interp.v
theories/Model_Math.v
theories/Model_Approx.v
theories/Model_MatOps.v
theories/Props_Math.v
theories/Proof_MatOps.v
theories/Proof_MatMore.v
theories/Props_Matrix.v
theories/Model_Interop.v
theories/Spec_Interop.v
theories/Proof_Interop.v
theories/Props_Interop.v
theories/Proof_Frame.v
theories/Spec_History.v
theories/Spec_Invalid.v
theories/Proof_FrameB.v
theories/Proof_History.v
theories/Props_History.v
theories/Proof_Invalid.v
theories/Proof_Breaks.v
theories/Props_Invalid.v
theories/Model_Interpolate.v
theories/Spec_Interpolate.v
theories/Proof_Trig.v
theories/Proof_Interpolate.v
theories/Proof_Interpolatei.v
theories/Proof_Interpolatef.v
theories/Proof_InterpolateSimd.v
theories/Proof_Exact.v
theories/Proof_InterpolateSimd2.v
theories/Proof_Interpolate2.v
theories/Proof_BackEven.v
theories/Props_Interpolate.v
theories/Proof_Builtin.v
theories/Props_Builtin.v
theories/Model_NoThread.v
theories/Props_NoThread.v
theories/Spec_Approx.v
theories/Proof_Approx.v
theories/Props_Approx.v
theories/Model_Registers.v
theories/Spec_Registers.v
theories/Proof_Registers.v
theories/Proof_Registers2.v
theories/Props_Registers.v
theories/Model_Index.v
theories/Spec_Index.v
theories/Proof_Index.v
theories/Props_Index.v
theories/Model_Poly.v
theories/Proof_PolyCheck.v
theories/Proof_PolyNum.v
theories/Proof_PolyTrig.v
theories/Proof_SimdMixed.v
theories/Spec_Poly.v
theories/Proof_Poly.v
theories/Proof_PolyVec.v
theories/Props_Poly.v
theories/Spec_Named.v
theories/Proof_Named.v
theories/Proof_NamedFft.v
theories/Proof_NamedRows.v
theories/Props_Named.v
theories/Spec_NamedFft.v
theories/Proof_NamedMore.v
theories/Props_NamedFft.v
theories/Spec_Buffer.v
theories/Proof_Buffer.v
theories/Proof_BufferOps.v
theories/Proof_BufferConv.v
theories/Proof_BufferConvolve.v
theories/Proof_BufferInterp.v
theories/Spec_BufferUse.v
theories/Proof_BufferAll.v
theories/Proof_BufferSwap.v
theories/Props_Buffer.v
theories/Model_Settings.v
theories/Spec_Settings.v
theories/Proof_Settings.v
theories/Props_Settings.v
theories/Model_Prec.v
theories/Spec_Prec.v
theories/Proof_Prec.v
theories/Model_Double.v
theories/Proof_PrecOps.v
theories/Proof_PrecDot.v
theories/Proof_PrecDot2.v
theories/Props_Prec.v
theories/Model_Inline.v
theories/Spec_Inline.v
theories/Proof_Inline.v
theories/Props_Inline.v
theories/Model_Foreign.v
theories/Spec_Foreign.v
theories/Proof_Foreign.v
theories/Proof_ForeignNum.v
theories/Props_Foreign.v
theories/Proof_Calibrate.v
theories/Props_Calibrate.v
theories/Spec_Shape.v
theories/Proof_Shape.v
theories/Proof_ShapeMat.v
theories/Props_Shape.v
theories/Model_Custom.v
theories/Props_Custom.v
theories/Spec_Round.v
theories/Proof_Round.v
theories/Props_Round.v
theories/Props_Round2.v
theories/Props_RoundConv.v
theories/Proof_RoundSimd.v
theories/Proof_RoundSimdC.v
theories/Props_RoundSimd.v
theories/Props_RoundStats.v
theories/Proof_WindowedSfft.v
theories/Props_WindowedSfft.v
