-Q theories Verif
theories/Base.v
theories/BaseFacts.v
theories/Wire.v
theories/WireFacts.v
theories/Types.v
theories/Codec.v
theories/WellFormed.v
theories/SpecWire.v
theories/CodecFacts.v
theories/Crypto.v
theories/SpecRfc.v
theories/Toy.v
theories/CodecFacts2.v
theories/SignFacts.v
theories/Samples.v
theories/SpecCodec.v
theories/SpecCodecFacts.v
theories/PropsCodec.v
theories/TreeMath.v
theories/TreeMathFacts.v
theories/SpecTreeMath.v
theories/TreePathFacts.v
theories/SpecTreeMathFacts.v
theories/PropsTreeMath.v
theories/Leaf.v
theories/Tree.v
theories/Schedule.v
theories/Proposal.v
theories/Framing.v
theories/Group.v
theories/Sha2.v
theories/Aead.v
theories/Curves.v
theories/RealCrypto.v
theories/VectorChecks.v
theories/VectorsClient.v
theories/VectorsGroup.v
theories/Vectors.v
theories/WireSpecFacts.v
theories/RfcFacts.v
theories/PropsWire.v
theories/ModelFacts.v
theories/SpecTree.v
theories/TreeFacts.v
theories/HeapFacts.v
theories/TreeOpFacts.v
theories/ResolveFacts.v
theories/SpecProposal.v
theories/ProposalFacts.v
theories/SpecGroup.v
theories/GroupFacts.v
theories/MessageFacts.v
theories/Sender.v
theories/Scenario.v
theories/Witness.v
theories/PropsProposal.v
theories/PropsMessages.v
theories/SpecSchedule.v
theories/ScheduleFacts.v
theories/PropsSchedule.v
theories/SpecTreeHash.v
theories/TreeHashFacts.v
theories/MergeFacts.v
theories/UnmergedFacts.v
theories/TreeStepFacts.v
theories/TreeSamples.v
theories/PropsTree.v
theories/SpecIntegrity.v
theories/LifetimeFacts.v
theories/IntegrityFacts.v
theories/IntegritySamples.v
theories/PropsIntegrity.v
theories/SpecAgreement.v
theories/DeliveryFacts.v
theories/AgreementFacts.v
theories/FrameFacts.v
theories/SpecJoin.v
theories/JoinFacts.v
theories/SpecKeyPackage.v
theories/KeyPackageFacts.v
theories/SpecSound.v
theories/SoundFacts.v
theories/SpecWelcome.v
theories/WelcomeFacts.v
theories/SpecHistory.v
theories/HistoryFacts.v
theories/JoinSamples.v
theories/SpecObtained.v
theories/ObtainedFacts.v
theories/OutcomeFacts.v
theories/GroupSamples.v
theories/PropsGroup.v
theories/SpecKeys.v
theories/KeyFacts.v
theories/KeySamples.v
theories/PropsKeys.v
theories/SpecPath.v
theories/PathFacts.v
theories/SenderFacts.v
theories/JoinPathFacts.v
theories/PathSamples.v
theories/PropsPath.v
theories/SpecOwn.v
theories/OwnFacts.v
theories/RemovedFacts.v
theories/CauseFacts.v
theories/RemovedSamples.v
theories/PropsRemoved.v
theories/SpecCrash.v
theories/CrashFacts.v
theories/JoinCrashFacts.v
theories/CrashSamples.v
theories/PanicFacts.v
theories/PropsCrash.v
theories/SpecEpoch.v
theories/ProtectFacts.v
theories/EpochFacts.v
theories/RfcSamples.v
theories/PropsRfc.v
theories/SpecCommitTree.v
theories/CommitTreeFacts.v
theories/CommitTreeSamples.v
theories/PropsCommitTree.v
theories/SpecHold.v
theories/HoldFacts.v
theories/FollowFacts.v
theories/HoldSamples.v
theories/PropsHold.v
theories/SpecParent.v
theories/ParentFacts.v
theories/ParentSamples.v
theories/PropsParent.v
theories/SpecAccept.v
theories/AcceptFacts.v
theories/AcceptSamples.v
theories/SpecInvite.v
theories/InviteFacts.v
theories/InviteSamples.v
theories/PropsAccept.v
theories/SpecCreate.v
theories/CreateFacts.v
theories/CreateSamples.v
theories/PropsCreate.v
theories/SpecSplit.v
theories/SplitFacts.v
theories/SplitSamples.v
theories/PropsSplit.v
theories/SpecView.v
theories/ViewFacts.v
theories/ViewSamples.v
theories/PropsView.v
theories/SpecFollow.v
theories/FollowAllFacts.v
theories/UnmergedGroupFacts.v
theories/FollowSamples.v
theories/PropsFollow.v
theories/SpecReference.v
theories/ReferenceFacts.v
theories/ReferenceSamples.v
theories/PropsReference.v
theories/SpecOwnLeaf.v
theories/OwnLeafFacts.v
theories/OwnLeafSamples.v
theories/PropsOwnLeaf.v
theories/Memory.v
theories/SpecMemory.v
theories/MemoryFacts.v
theories/PropsMemory.v
theories/Work.v
theories/WorkFacts.v
theories/WorkSamples.v
theories/PropsWork.v
theories/SpecNodeKeys.v
theories/NodeKeysFacts.v
theories/NodeKeysSamples.v
theories/PropsNodeKeys.v
theories/PublicFacts.v
theories/PropsPublic.v
theories/SpecTypes.v
theories/TypesFacts.v
theories/TypesSamples.v
theories/PropsTypes.v
theories/SpecWhole.v
theories/WholeFacts.v
theories/WholeSamples.v
theories/PropsWhole.v
theories/HashWork.v
theories/HashWorkFacts.v
theories/PropsHashWork.v
theories/SpecSupport.v
theories/SupportFacts.v
theories/SupportSamples.v
theories/PropsSupport.v
theories/SpecSecrecy.v
theories/SecrecyFacts.v
theories/SecrecySamples.v
theories/PropsSecrecy.v
theories/SpecOrigin.v
theories/OriginFacts.v
theories/OriginSamples.v
theories/PropsOrigin.v
theories/AlikeFacts.v
theories/AlikeSamples.v
theories/PropsAlike.v
theories/SpecReads.v
theories/ReadsFacts.v
theories/ReadsSamples.v
theories/PropsReads.v
theories/NewcomerFacts.v
theories/NewcomerSamples.v
theories/PropsNewcomer.v
theories/SpecPending.v
theories/PendingFacts.v
theories/PendingSamples.v
theories/PropsPending.v
theories/SpecOrder.v
theories/OrderFacts.v
theories/OrderSamples.v
theories/PropsOrder.v
theories/SpecFork.v
theories/ForkFacts.v
theories/ForkSamples.v
theories/PropsFork.v
theories/Names.v
theories/SpecNames.v
theories/NamesFacts.v
theories/PropsNames.v
theories/MessageWork.v
theories/SpecMessageWork.v
theories/MessageWorkFacts.v
theories/MessageBoundFacts.v
theories/MessageWorkSamples.v
theories/PropsMessageWork.v
theories/SpecTags.v
theories/TagFacts.v
theories/PropsTags.v
theories/EveryFacts.v
theories/PropsEvery.v
theories/JoinWork.v
theories/JoinWorkFacts.v
theories/PropsJoinWork.v
theories/OnceFacts.v
theories/PropsOnce.v
theories/ReplayFacts.v
theories/PropsReplay.v
theories/SpecUnchecked.v
theories/UncheckedFacts.v
theories/UncheckedSamples.v
theories/PropsUnchecked.v
theories/EndFacts.v
theories/EndSamples.v
theories/PropsEnd.v
theories/BlankFacts.v
theories/SpecExact.v
theories/ExactFacts.v
theories/BlankSamples.v
theories/PropsBlank.v
theories/SpecExactPath.v
theories/ExactPathFacts.v
theories/ExactSamples.v
theories/PropsExact.v
theories/SpecExactJoin.v
theories/ExactJoinFacts.v
theories/ExactJoinSamples.v
theories/PropsExactJoin.v
theories/SpecFound.v
theories/FoundFacts.v
theories/FoundSamples.v
theories/PropsFound.v
theories/SpecStale.v
theories/StaleFacts.v
theories/StaleSamples.v
theories/PropsStale.v
theories/SpecMixed.v
theories/MixedFacts.v
theories/MixedSamples.v
theories/PropsMixed.v
theories/SpecGrease.v
theories/GreaseFacts.v
theories/GreaseSamples.v
theories/PropsGrease.v
theories/SpecTogether.v
theories/TogetherFacts.v
theories/TogetherSamples.v
theories/PropsTogether.v
theories/SpecTwice.v
theories/TwiceFacts.v
theories/TwiceSamples.v
theories/PropsTwice.v
theories/SpecFresh.v
theories/FreshFacts.v
theories/FreshSamples.v
theories/PropsFresh.v
theories/SpecSpoiled.v
theories/SpoiledFacts.v
theories/SpoiledSamples.v
theories/PropsSpoiled.v
theories/SpecTaken.v
theories/TakenFacts.v
theories/TakenSamples.v
theories/PropsTaken.v
theories/SpecOusted.v
theories/OustedFacts.v
theories/OustedSamples.v
theories/PropsOusted.v
theories/AnonFacts.v
theories/AnonSamples.v
theories/PropsAnon.v
theories/UsedFacts.v
theories/UsedSamples.v
theories/PropsUsed.v
theories/DroppedFacts.v
theories/DroppedSamples.v
theories/PropsDropped.v
theories/SpecCopied.v
theories/CopiedFacts.v
theories/CopiedSamples.v
theories/PropsCopied.v
