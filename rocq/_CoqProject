-Q theories Verif
theories/Base.v
theories/Times.v
theories/Expect.v
theories/Mock.v
theories/TimesSpec.v
theories/TimesProofs.v
theories/ExpectProofs.v
theories/Spec.v
theories/DispatchProofs.v
theories/GreedyProofs.v
theories/SoleProofs.v
theories/Samples.v
theories/CountProofs.v
theories/PropCounts.v
theories/FifoProofs.v
theories/PropDispatch.v
theories/CallProofs.v
theories/ReturnProofs.v
theories/StProofs.v
theories/PropReturns.v
theories/SysSpec.v
theories/SysProofs.v
theories/SeqProofs.v
theories/AcceptProofs.v
theories/PropSequences.v
theories/ValidProofs.v
theories/StaticProofs.v
theories/PoisonProofs.v
theories/PropValidation.v
theories/PropStatics.v
theories/PropPanics.v
theories/Conc.v
theories/ConcSpec.v
theories/ConcProofs.v
theories/LockProofs.v
theories/ThreadProofs.v
theories/LinProofs.v
theories/PropThreads.v
theories/ViolationSpec.v
theories/ViolationProofs.v
theories/PropViolation.v
theories/PropSerial.v
theories/Contexts.v
theories/ContextsSpec.v
theories/ContextsProofs.v
theories/ContextsLin.v
theories/ContextsTests.v
theories/ContextsEnd.v
theories/ContextsModel.v
theories/PropContexts.v
theories/Nest.v
theories/NestSpec.v
theories/NestProofs.v
theories/NestSim.v
theories/NestMain.v
theories/PropNest.v
theories/NestLocks.v
theories/NestRank.v
theories/PropNestThreads.v
theories/Relaxed.v
theories/RelaxedSpec.v
theories/RelaxedProofs.v
theories/RelaxedSync.v
theories/PropRelaxed.v
theories/Ast.v
theories/AstProofs.v
theories/Rewrite.v
theories/AstSpec.v
theories/RewriteProofs.v
theories/SuperProofs.v
theories/TyEq.v
theories/Derive.v
theories/Names.v
theories/Subst.v
theories/DeriveSpec.v
theories/VisProofs.v
theories/PropRewrite.v
theories/PropDouble.v
theories/GenericsProofs.v
theories/PropGenerics.v
theories/AttrProofs.v
theories/PropAttrs.v
theories/ClosureProofs.v
theories/PropClosure.v
theories/SubstProofs.v
theories/PropSubst.v
theories/Sig.v
theories/Item.v
theories/MockFn.v
theories/MockFnSpec.v
theories/MockFnProofs.v
theories/PropOutput.v
theories/MockItem.v
theories/NameProofs.v
theories/ItemSpec.v
theories/ItemProofs.v
theories/GenSpec.v
theories/GenProofs.v
theories/PropItems.v
theories/PropExpectTypes.v
theories/BodySpec.v
theories/PropBody.v
theories/CallSpec.v
theories/PropCalls.v
theories/SigSpec.v
theories/SigProofs.v
theories/PropSig.v
theories/PipeSpec.v
theories/PipeProofs.v
theories/PropPipeline.v
theories/ModSpec.v
theories/PropModules.v
theories/Errors.v
theories/RefuseSpec.v
theories/PropRefuse.v
theories/OrdinaryProofs.v
theories/PropAccept.v
theories/GenRun.v
theories/GenRunSpec.v
theories/GenRunLists.v
theories/GenRunObj.v
theories/GenRunDesc.v
theories/GenRunProofs.v
theories/GenRunNames.v
theories/GenRunCount.v
theories/GenRunFns.v
theories/PropGenRun.v
theories/ModRun.v
theories/ModRunSpec.v
theories/ModRunProofs.v
theories/PropModRun.v
theories/Scopes.v
theories/ScopeSpec.v
theories/ScopeProofs.v
theories/ScopeFacts.v
theories/ScopeBuild.v
theories/PropScopes.v
theories/Messages.v
theories/MessageSpec.v
theories/MessageText.v
theories/MessageProofs.v
theories/MessageRuns.v
theories/PropMessages.v
theories/Fragile.v
theories/FragileSpec.v
theories/FragileProofs.v
theories/FragileRuns.v
theories/PropFragile.v
theories/PointSpec.v
theories/PointProofs.v
theories/PointRuns.v
theories/PointGenSpec.v
theories/PointGen.v
theories/PropPoint.v
theories/AutoTraits.v
theories/AutoSpec.v
theories/AutoProofs.v
theories/PropAuto.v
theories/EndSpec.v
theories/EndProofs.v
theories/PropEnd.v
theories/Ask.v
theories/AskSpec.v
theories/AskLocks.v
theories/AskProofs.v
theories/AskEval.v
theories/AskRank.v
theories/PropAsk.v
theories/Front.v
theories/FrontSpec.v
theories/PropFront.v
theories/PropOut.v
theories/Guards.v
theories/GuardsSpec.v
theories/GuardsProofs.v
theories/GuardsMore.v
theories/GuardsEnd.v
theories/PropGuards.v
theories/Prints.v
theories/PrintsSpec.v
theories/PrintsProofs.v
theories/PrintsLog.v
theories/PropPrints.v
theories/Owns.v
theories/OwnsSpec.v
theories/OwnsProofs.v
theories/PropOwns.v
theories/Drops.v
theories/DropsSpec.v
theories/DropsProofs.v
theories/DropsMore.v
theories/PropDrops.v
theories/Multi.v
theories/MultiSpec.v
theories/MultiProofs.v
theories/MultiMore.v
theories/PropMulti.v
theories/DelegSpec.v
theories/DelegProofs.v
theories/DelegMore.v
theories/PropDeleg.v
theories/PropDelegPoint.v
theories/RepoChecks.v
theories/RepoDecls.v
theories/RepoUnit.v
theories/RepoTests.v
theories/RepoRuns.v
