-Q theories Verif
theories/Req.v
theories/Py.v
theories/Names.v
theories/Reqs.v
theories/Logic.v
theories/Validation.v
theories/Core.v
theories/Py_facts.v
theories/Logic_facts.v
theories/Sem.v
theories/Ops_facts.v
theories/Built.v
theories/Built_facts.v
theories/Names_facts.v
theories/Order_facts.v
theories/CoreEq_facts.v
theories/Spec_Features.v
theories/Feature_facts.v
theories/Prop_Logic.v
theories/Spec_Reqs.v
theories/Spec.v
theories/Cycle_facts.v
theories/Spec_Core.v
theories/Validation_facts.v
theories/Inst_facts.v
theories/Core_facts.v
theories/Prop_Core.v
theories/CacheHash.v
theories/CacheHash_facts.v
theories/Traceback.v
theories/Prop_Runtime.v
theories/Show.v
theories/Lexer.v
theories/TypedList.v
theories/UpdateTags.v
theories/Parser.v
theories/Spec_Parse.v
theories/TypedList_facts.v
theories/Parse_facts.v
theories/Prop_Parse.v
theories/NF_facts.v
theories/GD_facts.v
theories/Spec_Derived.v
theories/Derived_facts.v
theories/Domain_facts.v
theories/Derived_facts2.v
theories/Prop_Derived.v
theories/Lex_facts.v
theories/Spec_Layout.v
theories/Layout_facts.v
theories/Prop_Layout.v
theories/Reuse_facts.v
theories/Prop_Reuse.v
theories/Prop_Features.v
theories/Spec_Action.v
theories/Action_facts.v
theories/Prop_Action.v
theories/Spec_Numbers.v
theories/Number_facts.v
theories/Problem_facts.v
theories/NumberText_facts.v
theories/Prop_Numbers.v
theories/Text_facts.v
theories/Plan_facts.v
theories/Prop_Plan.v
theories/Print_facts.v
theories/Spec_Print.v
theories/Types_facts.v
theories/Prop_Print.v
theories/Vars_facts.v
theories/Prop_Vars.v
theories/NumShow_facts.v
theories/ShowSame_facts.v
theories/Spec_Text.v
theories/FormText_facts.v
theories/Prop_Text.v
theories/Spec_Problem.v
theories/ProblemText_facts.v
theories/Prop_Problem.v
theories/Spec_Domain.v
theories/Scope_facts.v
theories/DomainText_facts.v
theories/DomainRead_facts.v
theories/Prop_Domain.v
theories/Spec_Same.v
theories/Same_facts.v
theories/Prop_Same.v
theories/Spec_Ops.v
theories/Kept_facts.v
theories/Prop_Kept.v
theories/Spec_Meaning.v
theories/Meaning_facts.v
theories/MeaningText_facts.v
theories/Prop_Meaning.v
theories/Spec_Effect.v
theories/Effect_facts.v
theories/EffectText_facts.v
theories/Prop_Effect.v
theories/Spec_Format.v
theories/Loose_facts.v
theories/Format_facts.v
theories/FormatDomain_facts.v
theories/Prop_Format.v
theories/Spec_Declared.v
theories/Declared_facts.v
theories/Prop_Declared.v
theories/Twice_facts.v
theories/Prop_Twice.v
theories/Spec_Heads.v
theories/HeadTypes_facts.v
theories/Prop_Heads.v
theories/Raise_facts.v
theories/RaiseParse_facts.v
theories/Prop_Raise.v
theories/Main.v
theories/Main_facts.v
theories/Prop_Main.v
theories/Spec_Subst.v
theories/Subst_facts.v
theories/Compose_facts.v
theories/Equal_facts.v
theories/Prop_Equal.v
theories/Prop_Subst.v
theories/Spec_Grammar.v
theories/Words_facts.v
theories/Grammar_facts.v
theories/GrammarText_facts.v
theories/GrammarAll_facts.v
theories/Recognize_facts.v
theories/Prop_Grammar.v
theories/Threads.v
theories/Spec_Threads.v
theories/Threads_facts.v
theories/Prop_Threads.v
theories/Spec_Grow.v
theories/Grow_facts.v
theories/Prop_Grow.v
theories/Spec_Ignored.v
theories/Ignored_facts.v
theories/Prop_Ignored.v
theories/Spec_Apart.v
theories/Apart_facts.v
theories/Sublist_facts.v
theories/Prop_Apart.v
theories/Used_facts.v
theories/Prop_Used.v
theories/Spec_Steps.v
theories/Steps_facts.v
theories/Prop_Steps.v
theories/Heap.v
theories/Spec_Heap.v
theories/Heap_facts.v
theories/Prop_Heap.v
theories/Strict_facts.v
theories/Compare.v
theories/Spec_Compare.v
theories/Compare_facts.v
theories/Prop_Compare.v
theories/Spec_Copy.v
theories/Copy_facts.v
theories/CopyText_facts.v
theories/Prop_Copy.v
theories/Spec_Rename.v
theories/Rename_facts.v
theories/RenameText_facts.v
theories/RenameParse_facts.v
theories/RenameAll_facts.v
theories/Prop_Rename.v
theories/Lark.v
theories/LarkTables.v
theories/LarkCert.v
theories/Spec_Lark.v
theories/LarkLR_facts.v
theories/LarkSound_facts.v
theories/LarkCheck_facts.v
theories/LarkContext.v
theories/LarkFinish_facts.v
theories/LarkFailed_facts.v
theories/LarkText_facts.v
theories/LarkTree_facts.v
theories/LarkMain_facts.v
theories/LarkStop_facts.v
theories/Prop_Lark.v
theories/Callbacks.v
theories/CallTree_facts.v
theories/CallForm_facts.v
theories/CallLists_facts.v
theories/CallEffect_facts.v
theories/CallDomain_facts.v
theories/CallDomain2_facts.v
theories/CallProblem_facts.v
theories/CallSyntax_facts.v
theories/Prop_Callbacks.v
theories/Prop_Given.v
theories/AcceptBase_facts.v
theories/AcceptForm_facts.v
theories/AcceptText_facts.v
theories/Missing_facts.v
theories/Prop_Missing.v
theories/TwiceProblem_facts.v
theories/Spec_Distinct.v
theories/Distinct_facts.v
theories/Prop_Distinct.v
theories/Spec_Init.v
theories/Init_facts.v
theories/Prop_Init.v
theories/Spec_Metric.v
theories/Metric_facts.v
theories/Prop_Metric.v
theories/Repr.v
theories/Spec_Repr.v
theories/Repr_facts.v
theories/Prop_Repr.v
theories/Spec_Cost.v
theories/Cost_facts.v
theories/Prop_Cost.v
theories/Spec_TextExact.v
theories/TextExact_facts.v
theories/Prop_TextExact.v
theories/Spec_Listing.v
theories/Listing_facts.v
theories/ListingText_facts.v
theories/Prop_Listing.v
theories/Spec_Expression.v
theories/Expression_facts.v
theories/ExpressionText_facts.v
theories/Prop_Expression.v
theories/Spec_Cut.v
theories/Cut_facts.v
theories/CutText_facts.v
theories/Prop_Cut.v
theories/CutLark_facts.v
theories/Prop_CutLark.v
theories/Spec_Made.v
theories/Prop_Made.v
theories/Spec_Words.v
theories/Prop_Words.v
theories/Spec_Execute.v
theories/Spec_Ground.v
theories/Execute_facts.v
theories/Ground_facts.v
theories/GroundPlan_facts.v
theories/Prop_Execute.v
theories/Prop_Ground.v
theories/Spec_Orders.v
theories/Orders_facts.v
theories/OrdersDomain_facts.v
theories/OrdersText_facts.v
theories/Prop_Orders.v
theories/Spec_Task.v
theories/Task_facts.v
theories/Prop_Task.v
theories/Spec_Instantiate.v
theories/Instantiate_facts.v
theories/Prop_Instantiate.v
theories/Spec_Case.v
theories/Case_facts.v
theories/Prop_Case.v
theories/Spec_Size.v
theories/Size_facts.v
theories/Prop_Size.v
theories/Spec_Depth.v
theories/Depth_facts.v
theories/Prop_Printed.v
theories/Shared.v
theories/Shared_facts.v
theories/Prop_Shared.v
theories/Prop_SharedProblem.v
theories/Spec_Interrupt.v
theories/Interrupt_facts.v
theories/Prop_Interrupt.v
theories/Prop_Assign.v
theories/Stopped.v
theories/Prop_Stopped.v
theories/Prop_Bodies.v
theories/Prop_Functions.v
theories/Prop_PlanOrder.v
theories/Prop_PlanGround.v
theories/Spec_HeadsAll.v
theories/HeadsAll_facts.v
theories/Prop_HeadsAll.v
theories/Ranked_facts.v
theories/Prop_Ranked.v
theories/TermCompare.v
theories/Prop_TermCompare.v
theories/Spec_Together.v
theories/Prop_Together.v
theories/Spec_Repeats.v
theories/Prop_Repeats.v
