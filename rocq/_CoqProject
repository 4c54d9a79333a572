-Q theories Verif
theories/Base.v
theories/Dict.v
theories/Num.v
theories/Env.v
theories/M_Common.v
theories/M_Qrels.v
theories/M_Run.v
theories/M_History.v
theories/Spec_DS.v
theories/Spec_Hist.v
theories/NumLaws.v
theories/P_Base.v
theories/P_Dict.v
theories/P_Common.v
theories/P_History.v
theories/EnvEx.v
theories/P_DS.v
theories/T_DS.v
theories/M_Metrics.v
theories/Spec_Metrics.v
theories/P_Metrics.v
theories/P_Metrics2.v
theories/P_Metrics3.v
theories/P_Metrics4.v
theories/P_Metrics5.v
theories/Spec_MetricsAPI.v
theories/P_Metrics6.v
theories/P_Metrics7.v
theories/T_Metrics.v
theories/T_Metrics2.v
theories/Ex_Metrics.v
theories/Spec_Perfect.v
theories/P_Perfect.v
theories/P_Perfect2.v
theories/T_Perfect.v
theories/M_Strings.v
theories/M_Evaluate.v
theories/Spec_Strings.v
theories/P_Strings.v
theories/T_Parse.v
theories/Spec_Eval.v
theories/P_Eval.v
theories/P_Eval2.v
theories/P_Eval3.v
theories/P_Eval4.v
theories/P_Eval5.v
theories/T_Evaluate.v
theories/T_Evaluate2.v
theories/T_Evaluate3.v
theories/M_Norm.v
theories/P_Norm.v
theories/Spec_Norm.v
theories/T_Norm.v
theories/T_Norm2.v
theories/T_Norm3.v
theories/M_Fusion.v
theories/P_Fusion.v
theories/Spec_Fusion.v
theories/P_Fusion2.v
theories/P_Fusion3.v
theories/T_Fusion.v
theories/T_Fusion2.v
theories/T_Fusion3.v
theories/T_Fusion4.v
theories/T_Fusion5.v
theories/T_Fusion6.v
theories/M_Train.v
theories/Spec_Train.v
theories/P_Train.v
theories/P_Train2.v
theories/P_Train3.v
theories/T_Train.v
theories/T_Train2.v
theories/T_Train3.v
theories/T_Train4.v
theories/M_Text.v
theories/M_Optimize.v
theories/Spec_Optimize.v
theories/P_Optimize.v
theories/T_Optimize.v
theories/T_Optimize2.v
theories/T_Optimize3.v
theories/T_Optimize4.v
theories/NumCmp.v
theories/M_Compare.v
theories/M_Report.v
theories/Spec_Compare.v
theories/P_Compare.v
theories/T_Compare.v
theories/T_Compare2.v
theories/T_Compare3.v
theories/Spec_Fisher.v
theories/T_Compare4.v
theories/T_CompareEx.v
theories/Spec_Report.v
theories/T_Report.v
theories/T_Report2.v
theories/T_Report3.v
theories/T_Report4.v
theories/T_Labels.v
theories/T_ReportEx.v
theories/M_IO.v
theories/Spec_IO.v
theories/P_IO.v
theories/P_IO2.v
theories/T_IO.v
theories/T_IO2.v
theories/T_IO3.v
theories/T_IO4.v
theories/T_IO5.v
theories/M_Download.v
theories/Spec_Download.v
theories/T_Download.v
theories/T_Download2.v
theories/M_Hub.v
theories/T_Hub.v
theories/M_Plot.v
theories/Spec_Plot.v
theories/T_Plot.v
theories/M_Paths.v
theories/T_Paths.v
theories/T_Paths2.v
theories/M_Utils.v
theories/T_Utils.v
theories/Spec_Float.v
theories/P_Float.v
theories/P_MetricsG.v
theories/P_Float2.v
theories/P_Float3.v
theories/P_Float4.v
theories/P_Float5.v
theories/P_Float6.v
theories/P_Float7.v
theories/T_Float.v
theories/T_Float2.v
theories/T_Float3.v
theories/Spec_Closure.v
theories/P_Closure.v
theories/T_Closure.v
theories/Spec_Float2.v
theories/P_Float8.v
theories/P_EvalG.v
theories/P_Float9.v
theories/T_Float4.v
theories/Spec_Keywords.v
theories/T_Keywords.v
theories/Spec_Float3.v
theories/P_Float10.v
theories/P_Float11.v
theories/T_Float5.v
theories/T_Parse2.v
theories/Spec_Unanimity.v
theories/P_Unanimity.v
theories/T_Unanimity.v
theories/Spec_Float4.v
theories/P_Float12.v
theories/P_Float13.v
theories/P_Float14.v
theories/P_Float15.v
theories/P_Float16.v
theories/T_Float6.v
theories/T_Float7.v
theories/T_Float8.v
theories/Spec_Meta.v
theories/T_Meta.v
theories/T_Meta2.v
theories/T_MetaEx.v
theories/Spec_Local.v
theories/P_Local.v
theories/P_Local2.v
theories/T_Local.v
theories/Spec_Scale.v
theories/T_Scale.v
theories/T_Typed.v
theories/Spec_RoundTrip.v
theories/T_RoundTrip.v
theories/M_Heap.v
theories/Spec_Heap.v
theories/P_Heap.v
theories/P_Heap2.v
theories/T_Heap.v
theories/M_Container.v
theories/Spec_Container.v
theories/T_Container.v
theories/M_Judgments.v
theories/Spec_Judgments.v
theories/P_Judgments.v
theories/T_Judgments.v
theories/Conformance.v
theories/Spec_Sched.v
theories/P_Sched.v
theories/T_Sched.v
theories/Spec_Trec.v
theories/P_Trec.v
theories/T_Trec.v
theories/Spec_Again.v
theories/P_Again.v
theories/T_Again.v
theories/P_MetricsG2.v
theories/Spec_Float5.v
theories/P_Float17.v
theories/P_Float18.v
theories/T_Float9.v
theories/Spec_Alike.v
theories/P_Alike.v
theories/T_Alike.v
theories/Spec_Tuned.v
theories/T_Tuned.v
theories/Spec_Weights.v
theories/T_Weights.v
theories/Spec_NormEval.v
theories/T_NormEval.v
theories/Spec_Float6.v
theories/T_Float10.v
theories/Spec_Float7.v
theories/T_Float11.v
theories/T_Float12.v
