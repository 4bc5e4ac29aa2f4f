-Q theories Verif
theories/Base.v
theories/GoStr.v
theories/Cid.v
theories/Types.v
theories/Nodes.v
theories/NodeSpec.v
theories/Reader.v
theories/Person.v
theories/Assemble.v
theories/Decode.v
theories/Encode.v
theories/Spec.v
theories/PersonFacts.v
theories/StreamFacts.v
theories/DecodeFacts.v
theories/RoundTrip.v
theories/HeaderSpec.v
theories/CommitFacts.v
theories/GrammarFacts.v
theories/Bufio.v
theories/Sim.v
theories/ReaderSpec.v
theories/BufioFacts.v
theories/SafeOps.v
theories/SafeBufio.v
theories/NoEof.v
theories/NumFacts.v
theories/Transfer.v
theories/Checks.v
theories/Invariants.v
theories/Props_person.v
theories/Props_roundtrip.v
theories/Props_reader.v
theories/Props_decode.v
theories/NormalSpec.v
theories/NormalFacts.v
theories/Props_grammar.v
theories/PrefixFacts.v
theories/CanonFacts.v
theories/Props_header.v
theories/Props_lines.v
theories/Props_tag.v
theories/CidSpec.v
theories/CidFacts.v
theories/StructSpec.v
theories/StructFacts.v
theories/Props_encode.v
theories/Props_struct.v
theories/Props_generic.v
theories/Props_entry.v
theories/TreeHeap.v
theories/TreeHeapFacts.v
theories/NodeFacts.v
theories/Props_nodes.v
theories/Props_stable.v
theories/BufferMem.v
theories/Props_memory.v
theories/Builder.v
theories/BuilderSpec.v
theories/BuilderFacts.v
theories/BuilderRuns.v
theories/Props_builder.v
theories/AssignCalls.v
theories/AssignFacts.v
theories/AssignLoops.v
theories/AssignLink.v
theories/Props_assign.v
theories/WalkSpec.v
theories/Props_walk.v
theories/DecodeEnd.v
theories/DecodeEndFacts.v
theories/LinkSystem.v
theories/Sha1.v
theories/Props_link.v
theories/GitObjects.v
theories/SurviveSpec.v
theories/SurviveFacts.v
theories/SurviveCommit.v
theories/SurviveIff.v
theories/Props_survive.v
theories/Typed.v
theories/Props_typed.v
theories/Props_follow.v
theories/SettleSpec.v
theories/SettleFacts.v
theories/Props_settle.v
theories/Foreign.v
theories/ForeignSpec.v
theories/Props_foreign.v
theories/DecodeAny.v
theories/Props_any.v
theories/Schema.v
theories/SchemaSpec.v
theories/Props_schema.v
theories/Inflate.v
theories/InflateSpec.v
theories/InflateFacts.v
theories/InflateSound.v
theories/InflateTotal.v
theories/Zlib.v
theories/ZlibSpec.v
theories/ZlibFacts.v
theories/Props_zlib.v
theories/Int32.v
theories/Props_int32.v
theories/ErrorSpec.v
theories/ErrorFacts.v
theories/Props_error.v
theories/Output.v
theories/Props_output.v
theories/Cost.v
theories/CostFacts.v
theories/Props_cost.v
theories/CutSpec.v
theories/CutFacts.v
theories/Props_cut.v
theories/Reuse.v
theories/ReuseFacts.v
theories/Props_reuse.v
theories/TreeShare.v
theories/TreeShareFacts.v
theories/Props_treeshare.v
theories/TreeAgreeFacts.v
theories/Props_treebuild.v
theories/Moving.v
theories/MovingSpec.v
theories/MovingFacts.v
theories/MovingWalk.v
theories/Props_moving.v
theories/QuoteSpec.v
theories/Quote.v
theories/QuoteFacts.v
theories/Props_message.v
theories/BlobShare.v
theories/BlobShareFacts.v
theories/Props_blobshare.v
theories/RepoTests.v
theories/EncodeCost.v
theories/EncodeCostSpec.v
theories/EncodeCostFacts.v
theories/Props_encode_cost.v
theories/Methods.v
theories/MethodsSpec.v
theories/Props_methods.v
theories/Protos.v
theories/ProtosSpec.v
theories/Props_protos.v
theories/FieldBits.v
theories/FieldBitsSpec.v
theories/Props_fieldbits.v
theories/Wiring.v
theories/Props_wiring.v
theories/Code.v
theories/Props_code.v
theories/Machine.v
theories/Props_machine.v
