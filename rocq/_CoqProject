-Q theories Verif
theories/GoBase.v
theories/Ast.v
theories/Registry.v
theories/Api.v
theories/Options.v
theories/Resolvers.v
theories/Demo.v
theories/DemoTests.v
theories/Client.v
theories/Worlds.v
theories/Spec.v
theories/Observe.v
theories/Routes.v
theories/Frame.v
theories/StrLemmas.v
theories/Visit.v
theories/Loader.v
theories/Loading.v
theories/Nodes.v
theories/LoadFacts.v
theories/Identity.v
theories/Enumerate.v
theories/Iterate.v
theories/Resolve.v
theories/ThmLoading.v
theories/ThmIdentity.v
theories/ThmIterators.v
theories/Navigate.v
theories/Loops.v
theories/Handed.v
theories/ValueFacts.v
theories/TypeUse.v
theories/ThmTypes.v
theories/ThmNavigation.v
theories/ThmMeta.v
theories/ThmDescr.v
theories/OptionUse.v
theories/ThmOptions.v
theories/Numerals.v
theories/Values.v
theories/ValueReads.v
theories/ThmValues.v
theories/ThmValues2.v
theories/ThmRender.v
theories/ThmRender2.v
theories/ThmValuePos.v
theories/ThmEverything.v
theories/ThmGoPackage.v
theories/Paths.v
theories/ThmResolvers.v
theories/ThmAccessors.v
theories/ThmTerminate.v
theories/ThmSchema.v
theories/Readme.v
theories/ThmReadme.v
theories/Same.v
theories/Stable.v
theories/ThmStable.v
theories/ThmFiles.v
theories/ThmMore.v
theories/ThmLint.v
theories/Hierarchy.v
theories/ThmHierarchy.v
theories/Threads.v
theories/ThmThreads.v
theories/ThmLater.v
theories/ThmErrors.v
theories/ThmNodeless.v
theories/ThmSpelling.v
theories/ThmProgram.v
theories/ThmMain.v
theories/ThmMainFails.v
theories/Quick.v
theories/ThmQuick.v
theories/ThmComplaints.v
theories/Survey.v
theories/ThmSurvey.v
theories/Gather.v
theories/ThmGather.v
theories/Language.v
theories/ThmLanguage.v
theories/ThmPanics.v
theories/LanguageOptions.v
theories/ThmLangOptions.v
theories/Deps.v
theories/ThmDeps.v
theories/Statements.v
theories/ThmPoison.v
theories/ThmTakeover.v
theories/ThmSameType.v
theories/ThmDescend.v
theories/ThmAscend.v
theories/Audit.v
