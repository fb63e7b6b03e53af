-Q theories Verif
theories/Base.v
theories/Num.v
theories/SumLaws.v
theories/StepPattern.v
theories/Window.v
theories/Core.v
theories/Backtrack.v
theories/Dtw.v
theories/CountPaths.v
theories/NumQ.v
theories/NumQLaws.v
theories/NumF.v
theories/NumFLaws.v
theories/Spec.v
theories/CoreProof.v
theories/DPProof.v
theories/Api.v
theories/DtwProof.v
theories/ApiProof.v
theories/ApiThms.v
theories/Tables.v
theories/WalkGeom.v
theories/Vocab.v
theories/Terms.v
theories/Uniq.v
theories/Thm1.v
theories/Thm2.v
theories/Thm3.v
theories/Thm4.v
theories/Thm5.v
theories/Thm6.v
theories/Thm7.v
theories/Thm8.v
theories/Bound.v
theories/BoundF.v
theories/Feas.v
theories/Thm9.v
theories/Thm10.v
theories/Thm11.v
theories/Textbook.v
theories/Thm12.v
theories/Derived.v
theories/Examples.v
theories/Thm13.v
theories/Derived2.v
theories/Examples2.v
theories/CountSpec.v
theories/CountProof.v
theories/CountThm.v
theories/CountThm2.v
theories/CountEx.v
theories/RJSpec.v
theories/RJ.v
theories/RJ2.v
theories/Thm14.v
theories/Thm15.v
theories/Examples3.v
theories/Properties1.v
theories/Properties2.v
theories/Properties3.v
theories/Properties4.v
theories/Properties5.v
theories/Warp.v
theories/WarpSpec.v
theories/WarpProof.v
theories/Laws2.v
theories/Thm16.v
theories/Thm17.v
theories/Thm18.v
theories/Examples4.v
theories/Properties6.v
theories/Plot.v
theories/PlotSpec.v
theories/Laws3.v
theories/Thm19.v
theories/Thm20.v
theories/Examples5.v
theories/Properties7.v
theories/Exact.v
theories/Accuracy.v
theories/Accuracy2.v
theories/Accuracy3.v
theories/Examples6.v
theories/Properties8.v
theories/Print.v
theories/PrintSpec.v
theories/Thm21.v
theories/Thm22.v
theories/Examples7.v
theories/Properties9.v
theories/SeriesSpec.v
theories/Thm23.v
theories/ZeroSum.v
theories/Thm24.v
theories/Thm25.v
theories/Examples8.v
theories/Properties10.v
theories/PathSpec.v
theories/Thm26.v
theories/Thm27.v
theories/Thm28.v
theories/Thm29.v
theories/Examples9.v
theories/Properties11.v
theories/Thm30.v
theories/Examples10.v
theories/Properties12.v
theories/Laws4.v
theories/Sim.v
theories/IntSpec.v
theories/Thm31.v
theories/Examples11.v
theories/Properties13.v
theories/SimCalls.v
theories/FloatSpec.v
theories/Fused.v
theories/Thm32.v
theories/Examples12.v
theories/Properties14.v
theories/Scale.v
theories/ScaleSpec.v
theories/Thm33.v
theories/Examples13.v
theories/Properties15.v
theories/StableSpec.v
theories/Stable.v
theories/Examples14.v
theories/Properties16.v
theories/HoldSpec.v
theories/Hold.v
theories/JoinSpec.v
theories/Join.v
theories/Examples15.v
theories/Properties17.v
theories/LengthSpec.v
theories/Accuracy4.v
theories/Examples16.v
theories/Properties18.v
theories/TriSpec.v
theories/Tri.v
theories/Tri2.v
theories/Examples17.v
theories/Properties19.v
theories/Heap.v
theories/HeapSpec.v
theories/HeapFrame.v
theories/HeapRefine.v
theories/HeapDtw.v
theories/HeapMain.v
theories/HeapThm.v
theories/Examples18.v
theories/Properties20.v
theories/Threads.v
theories/ThreadSpec.v
theories/ThreadProof.v
theories/Examples19.v
theories/Properties21.v
theories/ArgSpec.v
theories/Thm34.v
theories/PatSpec.v
theories/Looser.v
theories/Examples20.v
theories/Properties22.v
theories/TieSpec.v
theories/Tie.v
theories/Examples21.v
theories/Properties23.v
theories/NarrowSpec.v
theories/Narrow.v
theories/Grow.v
theories/Examples22.v
theories/Default.v
theories/Properties24.v
theories/Count3.v
theories/Examples23.v
theories/Properties25.v
theories/SelfTest.v
theories/SelfSpec.v
theories/SelfThm.v
theories/FactorSpec.v
theories/Factor.v
theories/Examples24.v
theories/Examples25.v
theories/Properties26.v
theories/SearchSpec.v
theories/Search.v
theories/Examples26.v
theories/Properties27.v
theories/PointsSpec.v
theories/Points.v
theories/Examples27.v
theories/Properties28.v
theories/Format.v
theories/FormatSpec.v
theories/FormatThm.v
theories/Format2.v
theories/Examples28.v
theories/Properties29.v
theories/LabelSpec.v
theories/Labels.v
theories/Examples29.v
theories/Properties30.v
theories/FormSpec.v
theories/FormThm.v
theories/Examples30.v
theories/RowSpec.v
theories/Reorder.v
theories/Examples31.v
theories/Properties31.v
theories/SameRules.v
theories/Examples32.v
theories/Properties32.v
theories/SumSpec.v
theories/Sum.v
theories/Examples33.v
theories/Properties33.v
theories/Mix.v
theories/HeapGoSpec.v
theories/HeapGo.v
theories/Examples34.v
