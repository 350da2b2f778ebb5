-Q theories Verif
theories/Base/Outcome.v
theories/Base/ZList.v
theories/Model/IntModel.v
theories/Model/ScalarOps.v
theories/Spec/IntSpec.v
theories/Spec/ScalarSem.v
theories/Proofs/IntProofs.v
theories/Proofs/ScalarProofs.v
theories/Spec/Configs.v
theories/Proofs/PowReal.v
theories/Proofs/FloatPow.v
theories/Proofs/FloatPowPoly.v
theories/Properties/P01_Scalars.v
theories/Model/Index.v
theories/Model/Slice.v
theories/Model/Array1D.v
theories/Spec/ArraySpec.v
theories/Spec/SliceSpec.v
theories/Proofs/Array1DProofs.v
theories/Proofs/SliceProofs.v
theories/Proofs/ViewProofs.v
theories/Proofs/SliceThms.v
theories/Properties/P02_Slices.v
theories/Model/Store1D.v
theories/Spec/Store1DSpec.v
theories/Proofs/Store1DProofs.v
theories/Proofs/Array1DThms.v
theories/Properties/P03_Array1D.v
theories/Model/Array2D.v
theories/Spec/MatrixSpec.v
theories/Proofs/MatrixProofs.v
theories/Spec/Matrix2Spec.v
theories/Proofs/Array2DProofs.v
theories/Proofs/Array2DSim.v
theories/Proofs/Array2DSim2.v
theories/Proofs/Array2DSim3.v
theories/Model/Store2D.v
theories/Spec/Store2DSpec.v
theories/Proofs/Store2DProofs.v
theories/Spec/Shape2Spec.v
theories/Proofs/Array2DThms.v
theories/Properties/P04_Array2D.v
theories/Model/View2D.v
theories/Spec/View2DSpec.v
theories/Proofs/View2DProofs.v
theories/Proofs/View2DOps.v
theories/Proofs/View2DThms.v
theories/Properties/P05_Views.v
theories/Model/Iterator.v
theories/Spec/IteratorSpec.v
theories/Proofs/IteratorProofs.v
theories/Properties/P06_Iterators.v
theories/Model/Expr.v
theories/Spec/ExprSpec.v
theories/Proofs/ExprProofs.v
theories/Proofs/ExprThms.v
theories/Proofs/ExprTree.v
theories/Proofs/ExprEval.v
theories/Proofs/ExprMore.v
theories/Proofs/Linspace.v
theories/Properties/P07_Expressions.v
theories/Model/Reduce.v
theories/Model/ViewAssign.v
theories/Model/StableOps.v
theories/Model/ErrorTools.v
theories/Model/Stale.v
theories/Model/FloatModel.v
theories/Model/SemiRandom.v
theories/Spec/ReduceSpec.v
theories/Spec/NormSpec.v
theories/Spec/AssignSpec.v
theories/Proofs/AssignProofs.v
theories/Proofs/AssignThms.v
theories/Proofs/AssignList.v
theories/Proofs/ReduceProofs.v
theories/Proofs/ReduceThms.v
theories/Proofs/NormThms.v
theories/Spec/StableSpec.v
theories/Spec/DualSpec.v
theories/Spec/FloatSpec.v
theories/Proofs/StableLoops.v
theories/Proofs/ExactProofs.v
theories/Proofs/PowProofs.v
theories/Proofs/FloatProofs.v
theories/Proofs/FloatSum.v
theories/Proofs/FloatProd.v
theories/Proofs/FloatAcc.v
theories/Proofs/FloatCmp.v
theories/Proofs/FloatTol.v
theories/Properties/P08_Reductions.v
theories/Properties/P09_Assignments.v
theories/Properties/P10_Floats.v
theories/Spec/SemiSpec.v
theories/Proofs/SemiProofs.v
theories/Proofs/SemiFloat.v
theories/Model/ArrayIO.v
theories/Model/FixedArray.v
theories/Model/Attach.v
theories/Model/SortModel.v
theories/Model/Random.v
theories/Model/Literals.v
theories/Model/Lifetimes.v
theories/Spec/LifetimeSpec.v
theories/Proofs/LifetimeProofs.v
theories/Spec/RandomSpec.v
theories/Spec/LiteralSpec.v
theories/Spec/LpSpec.v
theories/Proofs/RandomProofs.v
theories/Proofs/RandomMore.v
theories/Properties/P11_Random.v
theories/Proofs/LiteralProofs.v
theories/Proofs/StablePoly.v
theories/Proofs/LpProofs.v
theories/Proofs/FloatPoly.v
theories/Model/FloatIO.v
theories/Spec/FloatIOSpec.v
theories/Spec/ReadSpec.v
theories/Proofs/FloatIOProofs.v
theories/Spec/IOSpec.v
theories/Proofs/IOProofs.v
theories/Proofs/IOText.v
theories/Proofs/FloatIOText.v
theories/Proofs/ReadProofs.v
theories/Model/Layout.v
theories/Model/Console.v
theories/Model/QuadIO.v
theories/Model/FloatMath.v
theories/Spec/ConsoleSpec.v
theories/Spec/QuadSpec.v
theories/Spec/FloatMathSpec.v
theories/Model/Lazy.v
theories/Spec/LazySpec.v
theories/Proofs/LazyProofs.v
theories/Proofs/LazyThms.v
theories/Model/Typed.v
theories/Spec/TypedSpec.v
theories/Proofs/TypedProofs.v
theories/Proofs/TypedTypes.v
theories/Proofs/TypedMeaning.v
theories/Proofs/TypedThms.v
theories/Proofs/TypedRules.v
theories/Proofs/TypedSafe.v
theories/Spec/LayoutSpec.v
theories/Proofs/LayoutText.v
theories/Proofs/LayoutProofs.v
theories/Proofs/LayoutFloat.v
theories/Proofs/LayoutMore.v
theories/Spec/StaleSpec.v
theories/Proofs/StaleProofs.v
theories/Proofs/StaleThms.v
theories/Spec/ConfigSpec.v
theories/Spec/FixedSpec.v
theories/Spec/SortSpec.v
theories/Proofs/ConfigProofs.v
theories/Proofs/ConfigThms.v
theories/Proofs/FixedProofs.v
theories/Proofs/FixedThms.v
theories/Proofs/AttachProofs.v
theories/Proofs/SortProofs.v
theories/Proofs/DistinctProofs.v
theories/Proofs/SortThms.v
theories/Properties/P12_IO.v
theories/Properties/P13_Config.v
theories/Properties/P14_Fixed.v
theories/Properties/P15_Attach.v
theories/Properties/P16_Sort.v
theories/Properties/P17_FloatIO.v
theories/Properties/P18_Random.v
theories/Properties/P19_Literals.v
theories/Properties/P20_StablePoly.v
theories/Properties/P21_PowAccuracy.v
theories/Properties/P22_Lifetimes.v
theories/Proofs/StableNorms.v
theories/Proofs/ErrorProofs.v
theories/Properties/P23_StableNorms.v
theories/Model/Scalars.v
theories/Spec/ScalarSpec.v
theories/Proofs/ConvProofs.v
theories/Proofs/TypingProofs.v
theories/Properties/P24_Conversions.v
theories/Properties/P25_Typing.v
theories/Properties/P26_Errors.v
theories/Properties/P27_Stale.v
theories/Properties/P28_Reading.v
theories/Properties/P29_Layout.v
theories/Properties/P30_Lazy.v
theories/Properties/P31_Typed.v
theories/Proofs/ConsoleProofs.v
theories/Proofs/ConsoleThms.v
theories/Proofs/ConsoleFiles.v
theories/Properties/P32_Console.v
theories/Proofs/QuadProofs.v
theories/Proofs/QuadTokens.v
theories/Proofs/QuadPrint.v
theories/Proofs/FloatMathProofs.v
theories/Properties/P33_Quad.v
theories/Properties/P34_FloatMath.v
theories/Model/Heap.v
theories/Model/Eigen.v
theories/Spec/HeapSpec.v
theories/Spec/EigenSpec.v
theories/Proofs/HeapProofs.v
theories/Properties/P35_Heap.v
theories/Spec/PlainSpec.v
theories/Proofs/PlainAcc.v
theories/Proofs/PlainCases.v
theories/Proofs/EigenProofs.v
theories/Proofs/EigenAcc.v
theories/Properties/P36_PlainAccuracy.v
theories/Properties/P37_Eigen.v
theories/Model/Heap2D.v
theories/Spec/Heap2DSpec.v
theories/Proofs/Heap2DProofs.v
theories/Properties/P38_Heap2D.v
theories/Model/Algo.v
theories/Spec/AlgoSpec.v
theories/Proofs/AlgoProofs.v
theories/Properties/P39_Algo.v
theories/Proofs/GridProofs.v
theories/Properties/P40_Grids.v
theories/Model/Handoff.v
theories/Spec/PointerSpec.v
theories/Proofs/PointerProofs.v
theories/Proofs/PointerMatrix.v
theories/Properties/P41_Pointers.v
theories/Proofs/HandoffProofs.v
theories/Properties/P42_Handoff.v
theories/Model/Lazy2.v
theories/Spec/Lazy2Spec.v
theories/Proofs/Lazy2Proofs.v
theories/Proofs/Lazy2Thms.v
theories/Properties/P43_Lazy2.v
theories/Model/Self.v
theories/Spec/SelfSpec.v
theories/Proofs/SelfProofs.v
theories/Properties/P44_Self.v
theories/Proofs/Self2Proofs.v
theories/Properties/P45_Self2.v
theories/Proofs/Self3Proofs.v
theories/Properties/P46_Self3.v
theories/Model/InPlace.v
theories/Spec/InPlaceSpec.v
theories/Proofs/InPlaceProofs.v
theories/Properties/P47_InPlace.v
theories/Model/Timer.v
theories/Spec/TimerSpec.v
theories/Proofs/TimerProofs.v
theories/Properties/P48_Timer.v
