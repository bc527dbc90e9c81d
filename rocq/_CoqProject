-Q theories Verif
theories/Acyclic.v
theories/Alone.v
theories/AnswerFacts.v
theories/Api.v
theories/Args.v
theories/ArgsFacts.v
theories/Cache.v
theories/Cmd.v
theories/Coerce.v
theories/Conc.v
theories/Config.v
theories/ConfigEnds.v
theories/ConfigOnly.v
theories/Conform.v
theories/Cycles.v
theories/Decided.v
theories/DecidedLevels.v
theories/DecidedNested.v
theories/DecidedOptions.v
theories/DecidedTop.v
theories/DeepConfig.v
theories/DeepEntry.v
theories/DeepExact.v
theories/Engine.v
theories/Equal.v
theories/ExLevels.v
theories/Explain.v
theories/ExplainData.v
theories/FailExact.v
theories/FailMore.v
theories/FailText.v
theories/FailTop.v
theories/Flags.v
theories/FlagsFacts.v
theories/Fpath.v
theories/Fuel.v
theories/Guard.v
theories/HierarchyExact.v
theories/InterpFacts.v
theories/Ipl.v
theories/IplExact.v
theories/IplFacts.v
theories/Kept.v
theories/Key.v
theories/KeyErrFacts.v
theories/KeyFacts.v
theories/Leaves.v
theories/Loader.v
theories/LoaderFacts.v
theories/Locality.v
theories/LookupExact.v
theories/LookupFail.v
theories/LookupTop.v
theories/ManyExact.v
theories/ManyNested.v
theories/ManyTop.v
theories/Merge.v
theories/MergeFacts.v
theories/MergeLookup.v
theories/Meta.v
theories/ModulesExact.v
theories/ModulesStop.v
theories/MuxExact.v
theories/New.v
theories/OptionsAsk.v
theories/Outcome.v
theories/P_Alone.v
theories/P_Api.v
theories/P_Blanks.v
theories/P_Cache.v
theories/P_Cmd.v
theories/P_Coerce.v
theories/P_Command.v
theories/P_Complete.v
theories/P_Config.v
theories/P_DataHash.v
theories/P_Deep.v
theories/P_Env.v
theories/P_Equal.v
theories/P_Explain.v
theories/P_ExplainData.v
theories/P_ExplainedPrograms.v
theories/P_Fail.v
theories/P_Flags.v
theories/P_FromFiles.v
theories/P_Given.v
theories/P_Guard.v
theories/P_Hidden.v
theories/P_Independent.v
theories/P_Ipl.v
theories/P_Key.v
theories/P_Kinds.v
theories/P_KindsSession.v
theories/P_Locality.v
theories/P_Lookup.v
theories/P_Many.v
theories/P_Merge.v
theories/P_Modes.v
theories/P_ModuleFailures.v
theories/P_ModuleSessions.v
theories/P_Modules.v
theories/P_Mux.v
theories/P_MuxLookup.v
theories/P_Nested.v
theories/P_New.v
theories/P_OnlyOptions.v
theories/P_Options.v
theories/P_Path.v
theories/P_Pipes.v
theories/P_PluginCall.v
theories/P_Plugins.v
theories/P_Program.v
theories/P_Programs.v
theories/P_Provider.v
theories/P_Races.v
theories/P_Resolve.v
theories/P_Rest.v
theories/P_RestArgs.v
theories/P_RestVars.v
theories/P_ScopeCycles.v
theories/P_Server.v
theories/P_Swap.v
theories/P_Text.v
theories/P_Told.v
theories/P_Top.v
theories/P_Truth.v
theories/P_Twice.v
theories/P_ValueText.v
theories/P_Values.v
theories/P_Written.v
theories/P_Yaml2json.v
theories/PathFacts.v
theories/Pipes.v
theories/PlaceFacts.v
theories/Plugin.v
theories/Program.v
theories/ProgramsExact.v
theories/Races.v
theories/Redacted.v
theories/ResolveFacts.v
theories/ResolveRun.v
theories/Rest.v
theories/RestArgs.v
theories/RootFacts.v
theories/SchemaFacts.v
theories/ServerComplete.v
theories/ServerExact.v
theories/ServerFail.v
theories/Session.v
theories/SettledLookup.v
theories/SpecAcyclic.v
theories/SpecAlone.v
theories/SpecApi.v
theories/SpecArgs.v
theories/SpecBlanks.v
theories/SpecConfig.v
theories/SpecDeep.v
theories/SpecExplain.v
theories/SpecFail.v
theories/SpecFlags.v
theories/SpecInterp.v
theories/SpecIpl.v
theories/SpecKey.v
theories/SpecKeyErr.v
theories/SpecLookup.v
theories/SpecMany.v
theories/SpecMerge.v
theories/SpecModules.v
theories/SpecMux.v
theories/SpecPath.v
theories/SpecPlace.v
theories/SpecPrograms.v
theories/SpecResolve.v
theories/SpecRestArgs.v
theories/SpecSchema.v
theories/SpecServer.v
theories/SpecServerFail.v
theories/SpecTop.v
theories/SpecValues.v
theories/SpecWorld.v
theories/State.v
theories/Str.v
theories/StrFacts.v
theories/Text.v
theories/TopExact.v
theories/Transparent.v
theories/Value.v
theories/ValueFacts.v
theories/Worlds.v
theories/Yaml2json.v
