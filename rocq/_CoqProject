-Q theories Verif
theories/Num.v
theories/XMath.v
theories/Ubend.v
theories/Peaks.v
theories/Brent.v
theories/Estimator.v
theories/Tail.v
theories/P2.v
theories/Spot.v
theories/B64.v
theories/RNum.v
theories/Str.v
theories/Heap.v
theories/NumFacts.v
theories/Session.v
theories/UbendFacts.v
theories/B64Facts.v
theories/PeaksFacts.v
theories/P2Facts.v
theories/SpotFacts.v
theories/Spec.v
theories/SpotB64.v
theories/DetectorLemmas.v
theories/Demo.v
theories/DemoCheck.v
theories/Props_Detector.v
theories/WindowLemmas.v
theories/SortLemmas.v
theories/ExactWindow.v
theories/FitLemmas.v
theories/Props_Window.v
theories/HeapSpec.v
theories/StrLemmas.v
theories/HeapLemmas.v
theories/HeapB64.v
theories/Props_Heap.v
theories/P2Spec.v
theories/P2B64.v
theories/P2Lemmas.v
theories/Props_P2.v
theories/P2ExactSpec.v
theories/P2Exact.v
theories/Props_P2Exact.v
theories/FloatUtilsLemmas.v
theories/Props_Math.v
theories/TailSpec.v
theories/ExactTail.v
theories/Props_Exact.v
theories/BrentLemmas.v
theories/BrentB64.v
theories/Props_Brent.v
theories/GrimshawSpec.v
theories/GrimshawExact.v
theories/Props_Grimshaw.v
theories/FitEffect.v
theories/Props_Fit.v
theories/MirrorSpec.v
theories/Mirror.v
theories/MirrorDemo.v
theories/Props_Mirror.v
theories/LogExact.v
theories/FloatErr.v
theories/LogB64.v
theories/LogAcc.v
theories/Props_Log.v
theories/ExpExact.v
theories/ExpB64.v
theories/ExpAcc.v
theories/Props_Exp.v
theories/CastLemmas.v
theories/CastApi.v
theories/CastDemo.v
theories/Props_Cast.v
theories/AccSpec.v
theories/PowAcc.v
theories/PowAcc2.v
theories/PowAcc3.v
theories/PowAcc4.v
theories/PowAcc5.v
theories/AccDemo.v
theories/Props_Accuracy.v
theories/DriftB64.v
theories/HistoryLemmas.v
theories/Props_Drift.v
theories/RefitLemmas.v
theories/TinyFit.v
theories/TinyApi.v
theories/ScaleDemo.v
theories/Props_Scale.v
theories/BrentBracket.v
theories/AdmissibleFit.v
theories/AdmissibleSize.v
theories/AdmissibleFit2.v
theories/AdmissibleApi.v
theories/AdmissibleProps.v
theories/Props_Usable.v
theories/VerdictSpec.v
theories/Verdict.v
theories/TranslateSpec.v
theories/Translate.v
theories/TranslateDemo.v
theories/Props_Meaning.v
theories/LikSpec.v
theories/LikAcc.v
theories/LikApi.v
theories/Props_Likelihood.v
theories/OrderLemmas.v
theories/OrderApi.v
theories/OrderDemo.v
theories/StaleLemmas.v
theories/StaleDemo.v
theories/Props_Order.v
theories/MissLemmas.v
theories/MissDemo.v
theories/Props_Miss.v
theories/SuiteData.v
theories/Suite.v
theories/Layout.v
theories/PyBinding.v
theories/JsBinding.v
theories/BindSpec.v
theories/PyLemmas.v
theories/JsLemmas.v
theories/Props_Bindings.v
theories/PyMembers.v
theories/MemberSpec.v
theories/PyMembersLemmas.v
theories/Props_Members.v
theories/Programs.v
theories/ProgramsLemmas.v
theories/ProgramsDemo.v
theories/Props_Programs.v
theories/ZeroLemmas.v
theories/Props_Zero.v
theories/Bench.v
theories/BenchBits.v
theories/LogB64Up.v
theories/BenchLog.v
theories/BenchExp.v
theories/BenchLemmas.v
theories/BenchP2.v
theories/Props_Bench.v
theories/BenchDepth.v
theories/DocsLemmas.v
theories/RiskSpec.v
theories/RiskLemmas.v
theories/RiskExact.v
theories/RiskDemo.v
theories/Props_Docs.v
theories/Word.v
theories/WordLemmas.v
theories/WordApi.v
theories/ExactUsable.v
theories/WordJump.v
theories/WordDemo.v
theories/Props_Word.v
theories/LogMono.v
theories/ProbBounds.v
theories/MonoDemo.v
theories/ExpMono.v
theories/MonoSpec.v
theories/TailMono.v
theories/TailDemo.v
theories/Props_Monotone.v
theories/PyRefs.v
theories/RefSpec.v
theories/RefLemmas.v
theories/RefDemo.v
theories/Props_Refs.v
theories/PyReenter.v
theories/ReenterLemmas.v
theories/ReenterDemo.v
theories/Props_Reenter.v
theories/OrdinarySpec.v
theories/OrdinaryLemmas.v
theories/Props_Ordinary.v
theories/RoundTripSpec.v
theories/RoundTripLemmas.v
theories/Props_RoundTrip.v
theories/MomentsLemmas.v
theories/Props_Moments.v
theories/UnitSpec.v
theories/UnitLemmas.v
theories/Props_Unit.v
theories/CostSpec.v
theories/CostLemmas.v
theories/Props_Cost.v
theories/FreedSpec.v
theories/FreedLemmas.v
theories/Props_Freed.v
theories/InfLemmas.v
theories/Props_Infinite.v
theories/ResetLemmas.v
theories/Props_Reset.v
theories/StreamLemmas.v
theories/Props_Stream.v
theories/DiscardLemmas.v
theories/Props_Discard.v
theories/CapacityLemmas.v
theories/Props_Capacity.v
theories/RiskOnlyLemmas.v
theories/Props_RiskOnly.v
theories/FlatLemmas.v
theories/Props_Flat.v
