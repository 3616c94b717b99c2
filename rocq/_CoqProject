-Q theories Verif
theories/Base.v
theories/PyAst.v
theories/Gql.v
theories/Config.v
theories/Stylers.v
theories/Registry.v
theories/Utils.v
theories/Documents.v
theories/Spec_Naming.v
theories/Spec_Config.v
theories/Spec_Docs.v
theories/P_Base.v
theories/P_Stylers.v
theories/P_Registry.v
theories/P_Config.v
theories/P_Gql.v
theories/P_Documents.v
theories/P_Topo.v
theories/Prop_Naming.v
theories/Prop_Config.v
theories/Prop_Documents.v
theories/Referencer.v
theories/Enums.v
theories/Inputs.v
theories/P_Monad.v
theories/Spec_Types.v
theories/P_Types.v
theories/Spec_Inputs.v
theories/P_Inputs.v
theories/P_Inputs2.v
theories/PySem.v
theories/P_Serializer.v
theories/P_Inputs3.v
theories/Spec_Refs.v
theories/P_Refs.v
theories/P_Enums.v
theories/Ex_Inputs.v
theories/P_InputProps.v
theories/Prop_Refs.v
theories/Prop_Enums.v
theories/Prop_Inputs.v
theories/Run.v
theories/Spec_Run.v
theories/P_Run.v
theories/Prop_Run.v
theories/Spec_Annot.v
theories/P_Annot.v
theories/Prop_Annot.v
theories/Funcs.v
theories/Spec_Funcs.v
theories/P_Funcs.v
theories/P_Indep.v
theories/P_Funcs2.v
theories/P_Funcs3.v
theories/Ex_Funcs.v
theories/Prop_Funcs.v
theories/Recurse.v
theories/Inline.v
theories/Fragments.v
theories/Operations.v
theories/Print.v
theories/Spec_Inline.v
theories/P_Inline.v
theories/P_Print.v
theories/P_Recurse.v
theories/P_InlineProps.v
theories/Prop_Inline.v
theories/Objects.v
theories/Spec_Fields.v
theories/P_Fields.v
theories/P_Selection.v
theories/P_Args.v
theories/Ex_Select.v
theories/Prop_Fields.v
theories/Spec_Selection.v
theories/P_Modelled.v
theories/P_Modelled2.v
theories/Spec_Dispatch.v
theories/P_Dispatch.v
theories/Prop_Selection.v
theories/Spec_Imports.v
theories/Spec_Scope.v
theories/P_Scope.v
theories/P_Scope2.v
theories/P_Scope3.v
theories/P_Scope4.v
theories/Prop_Scope.v
theories/P_Imports.v
theories/Prop_Imports.v
theories/Merge.v
theories/Spec_Merge.v
theories/P_Merge.v
theories/Prop_Merge.v
theories/Polyfill.v
theories/Spec_Polyfill.v
theories/P_Polyfill.v
theories/Prop_Polyfill.v
theories/Spec_Names.v
theories/P_Post.v
theories/P_Attr.v
theories/P_Attr2.v
theories/Prop_Collide.v
theories/Spec_Paths.v
theories/P_Paths.v
theories/Prop_Paths.v
theories/Spec_Classes.v
theories/P_Trace.v
theories/P_Classes.v
theories/Prop_Classes.v
theories/Strawberry.v
theories/Spec_Scaffold.v
theories/P_Scaffold.v
theories/Prop_Scaffold.v
theories/Spec_Camel.v
theories/P_Camel.v
theories/Prop_Camel.v
theories/Spec_Mro.v
theories/P_Mro.v
theories/P_Mro2.v
theories/Prop_Mro.v
theories/Spec_Mro2.v
theories/P_Mro3.v
theories/P_Mro4.v
theories/P_Mro5.v
theories/Prop_Mro2.v
theories/Spec_Valid.v
theories/P_Total.v
theories/P_Total2.v
theories/P_Total3.v
theories/P_Total4.v
theories/Prop_Total.v
theories/Spec_ValidDoc.v
theories/P_Total5.v
theories/P_Total6.v
theories/P_Total7.v
theories/P_Total8.v
theories/Prop_TotalDoc.v
theories/Spec_ValidFuncs.v
theories/Spec_Return.v
theories/P_Return.v
theories/P_Total9.v
theories/P_Total10.v
theories/Prop_TotalFuncs.v
theories/Spec_Scope2.v
theories/P_Scope5.v
theories/P_Scope6.v
theories/P_Scope7.v
theories/P_Scope8.v
theories/P_Scope9.v
theories/P_Scope10.v
theories/Prop_Scope2.v
theories/Prop_Scope3.v
theories/Spec_Response.v
theories/P_Response.v
theories/P_Response2.v
theories/Prop_Response.v
theories/P_Freeze.v
theories/P_Freeze2.v
theories/Prop_Freeze.v
theories/Spec_Values.v
theories/P_Values.v
theories/P_Values2.v
theories/Prop_Values.v
theories/Spec_Syntax.v
theories/InputFuncs.v
theories/Spec_Syntax2.v
theories/Spec_Syntax3.v
theories/P_Syntax.v
theories/P_Syntax2.v
theories/P_Syntax3.v
theories/P_Syntax4.v
theories/P_Syntax5.v
theories/P_Syntax6.v
theories/P_Syntax7.v
theories/P_Syntax8.v
theories/Prop_Syntax.v
theories/Spec_Scope3.v
theories/P_Scope11.v
theories/P_Scope12.v
theories/P_Scope13.v
theories/Prop_Scope4.v
theories/Comments.v
theories/Spec_Comments.v
theories/P_Comments.v
theories/Prop_Comments.v
theories/Templates.v
theories/Spec_Templates.v
theories/P_Templates.v
theories/Prop_Templates.v
theories/Loaders.v
theories/Spec_Loaders.v
theories/P_Loaders.v
theories/Prop_Loaders.v
theories/Spec_Pydantic.v
theories/P_Pydantic.v
theories/Prop_Pydantic.v
theories/Spec_ScopeObj.v
theories/P_ScopeObj.v
theories/Prop_ScopeObj.v
theories/P_Rebuild.v
theories/Prop_Rebuild.v
theories/Spec_Traits.v
theories/P_Traits.v
theories/Prop_Traits.v
theories/Spec_Calls.v
theories/P_Calls.v
theories/P_Calls2.v
theories/P_Calls3.v
theories/P_Calls4.v
theories/P_Calls5.v
theories/Prop_Calls.v
theories/Settings.v
theories/Spec_Settings.v
theories/P_Settings.v
theories/P_Settings2.v
theories/Prop_Settings.v
theories/Spec_Variables.v
theories/P_Variables.v
theories/Prop_Variables.v
theories/Spec_Hides.v
theories/P_Hides.v
theories/Prop_Hides.v
theories/Components.v
theories/Spec_Components.v
theories/P_Components.v
theories/Prop_Components.v
theories/Project.v
theories/Spec_Project.v
theories/P_Project.v
theories/P_Project2.v
theories/Prop_Project.v
theories/Spec_Bases.v
theories/P_Bases.v
theories/P_Bases2.v
theories/Prop_Bases.v
theories/Spec_Patterns.v
theories/P_Patterns.v
theories/P_Patterns2.v
theories/Prop_Patterns.v
theories/Spec_Factories.v
theories/P_Factories.v
theories/P_Factories2.v
theories/Prop_Factories.v
theories/Spec_Build.v
theories/P_Build.v
theories/Prop_Build.v
theories/Spec_Params.v
theories/P_Params.v
theories/P_Params2.v
theories/P_Params3.v
theories/Prop_Params.v
theories/Spec_Docstring.v
theories/P_Docstring.v
theories/Prop_Docstring.v
theories/Spec_Kept.v
theories/P_Kept.v
theories/Prop_Kept.v
theories/Spec_KeptSb.v
theories/P_KeptSb.v
theories/Prop_KeptSb.v
theories/Spec_Applied.v
theories/P_Applied.v
theories/Prop_Applied.v
theories/Spec_Kept2.v
theories/P_Kept2.v
theories/Prop_Kept2.v
theories/P_Build2.v
theories/Prop_Build2.v
theories/P_Run2.v
theories/Prop_Run2.v
