-Q theories Verif
theories/Model/Base.v
theories/Model/Crypto.v
theories/Model/Io.v
theories/Model/Agreement.v
theories/Model/Encryption.v
theories/Model/Config.v
theories/Model/Message.v
theories/Model/Reader.v
theories/Model/Status.v
theories/Model/Minimal.v
theories/Model/Complete.v
theories/Model/Serde.v
theories/Model/Hint.v
theories/Spec/Wire.v
theories/Spec/Trace.v
theories/Proofs/BaseFacts.v
theories/Proofs/IoFacts.v
theories/Proofs/CipherFacts.v
theories/Proofs/ReaderFacts.v
theories/Proofs/ReadCases.v
theories/Proofs/WindowFacts.v
theories/Proofs/Invariant.v
theories/Proofs/Negotiation.v
theories/Proofs/Failure.v
theories/Spec/Datagram.v
theories/Proofs/DatagramFacts.v
theories/Instances/Toy.v
theories/Instances/Scenario.v
theories/Spec/ReadSpec.v
theories/Spec/Accept.v
theories/Proofs/ReadSpecFacts.v
theories/Proofs/Accept.v
theories/Spec/Session.v
theories/Proofs/Keys.v
theories/Proofs/TraceInv.v
theories/Proofs/UserReads.v
theories/Proofs/Ledger.v
theories/Spec/Writers.v
theories/Proofs/Nonces.v
theories/Proofs/Sending.v
theories/Proofs/Early.v
theories/Proofs/Histories.v
theories/Proofs/DevErrors.v
theories/Spec/Attacks.v
theories/Proofs/Corollaries.v
theories/Spec/Peer.v
theories/Spec/CompleteTrace.v
theories/Proofs/CompleteFacts.v
theories/Proofs/Steps.v
theories/Proofs/CompleteMode.v
theories/Proofs/CompleteStates.v
theories/Proofs/Configs.v
theories/Spec/Typed.v
theories/Proofs/Typed.v
theories/Proofs/Writing.v
theories/Spec/Network.v
theories/Proofs/Honest.v
theories/Instances/CompleteScenario.v
theories/Instances/Sha256.v
theories/Instances/RepoTests.v
theories/Instances/NetScenario.v
theories/Instances/MinimalNetScenario.v
theories/Proofs/Vocabulary.v
theories/Properties/Wire.v
theories/Properties/Vocabulary.v
theories/Properties/Reading.v
theories/Properties/Negotiation.v
theories/Proofs/Counters.v
theories/Properties/Peer.v
theories/Properties/Nonces.v
theories/Properties/Secret.v
theories/Properties/Complete.v
theories/Properties/Typed.v
theories/Properties/Io.v
theories/Spec/Adversary.v
theories/Spec/Receiver.v
theories/Spec/Split.v
theories/Spec/TypedTrace.v
theories/Spec/Projection.v
theories/Spec/CompleteAdversary.v
theories/Proofs/Adversary.v
theories/Proofs/Fragile.v
theories/Proofs/Receiver.v
theories/Proofs/Split.v
theories/Proofs/TypedTrace.v
theories/Proofs/Projection.v
theories/Proofs/CompleteAdversary.v
theories/Spec/Lengths.v
theories/Proofs/Lengths.v
theories/Proofs/Framing.v
theories/Spec/TypedNetwork.v
theories/Proofs/TypedNetwork.v
theories/Spec/CompleteReceiver.v
theories/Spec/Machine.v
theories/Spec/MinimalNetwork.v
theories/Spec/CompleteMachine.v
theories/Proofs/CompleteReceiver.v
theories/Proofs/Machine.v
theories/Proofs/MinimalHonest.v
theories/Proofs/CompleteMachine.v
theories/Properties/Honest.v
theories/Properties/Fragile.v
theories/Properties/Receiver.v
theories/Properties/Adversary.v
theories/Properties/Projection.v
theories/Properties/Split.v
theories/Properties/TypedTrace.v
theories/Properties/Framing.v
theories/Properties/Lengths.v
theories/Properties/TypedNetwork.v
theories/Properties/CompleteReceiver.v
theories/Properties/Machine.v
theories/Properties/MinimalHonest.v
theories/Properties/CompleteMachine.v
theories/Spec/Builds.v
theories/Proofs/Builds.v
theories/Properties/Builds.v
theories/Spec/Hint.v
theories/Proofs/Hint.v
theories/Spec/Memory.v
theories/Proofs/Memory.v
theories/Properties/Hint.v
theories/Properties/Memory.v
theories/Model/Debug.v
theories/Spec/Debug.v
theories/Proofs/Debug.v
theories/Properties/Debug.v
theories/Spec/Poly1305.v
theories/Proofs/Prime1305.v
theories/Proofs/Roots.v
theories/Proofs/Poly1305.v
theories/Properties/Poly1305.v
theories/Spec/Errors.v
theories/Proofs/Errors.v
theories/Properties/Errors.v
theories/Spec/Traffic.v
theories/Proofs/Traffic.v
theories/Properties/Traffic.v
theories/Spec/Stolen.v
theories/Spec/Family.v
theories/Spec/FamilyAdversary.v
theories/Spec/FamilyDelivery.v
theories/Spec/Default.v
theories/Proofs/Stolen.v
theories/Proofs/StolenLater.v
theories/Proofs/Lives.v
theories/Proofs/Family.v
theories/Proofs/SFamily.v
theories/Proofs/FamilyReceiver.v
theories/Proofs/FamilyAdversary.v
theories/Proofs/FamilyDelivery.v
theories/Proofs/Default.v
theories/Properties/Stolen.v
theories/Properties/Family.v
theories/Properties/FamilyAdversary.v
theories/Properties/FamilyDelivery.v
theories/Properties/Default.v
