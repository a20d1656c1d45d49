-Q theories Verif
theories/Base.v
theories/BaseFacts.v
theories/JsonValue.v
theories/Metadata.v
theories/Verify.v
theories/Paths.v
theories/Tuf.v
theories/SpecVerify.v
theories/VerifyProofs.v
theories/SpecTuf.v
theories/TufProofs.v
theories/TufHistory.v
theories/StringFacts.v
theories/SpecPaths.v
theories/PathProofs.v
theories/SpecLookup.v
theories/LookupProofs.v
theories/Toy.v
theories/Props_Verify.v
theories/Props_Tuf.v
theories/Props_Lookup.v
theories/Props_Paths.v
theories/F32.v
theories/Reader.v
theories/SpecReader.v
theories/ReaderProofs.v
theories/F32Proofs.v
theories/Props_Reader.v
theories/Repo.v
theories/SpecRepo.v
theories/RepoProofs.v
theories/Props_Repo.v
theories/Client.v
theories/SpecClient.v
theories/ClientLogic.v
theories/ClientProofs.v
theories/ClientUpdates.v
theories/ClientWalk.v
theories/ClientTargets.v
theories/ClientHistory.v
theories/ClientToy.v
theories/Props_Client.v
theories/Utf8.v
theories/JsonText.v
theories/SpecJson.v
theories/JsonComplete.v
theories/JsonSound.v
theories/JsonProofs.v
theories/Props_JsonText.v
theories/Codec.v
theories/SpecCodec.v
theories/CodecProofs.v
theories/Dates.v
theories/SpecDates.v
theories/DateProofs.v
theories/YearProofs.v
theories/Props_Codec.v
theories/Serde.v
theories/Keys.v
theories/Shims.v
theories/SerdeProofs.v
theories/SpecKeys.v
theories/KeyProofs.v
theories/KeyToy.v
theories/Props_Keys.v
theories/SpecMeta.v
theories/ShimsProofs.v
theories/TextProofs.v
theories/JsonLayer.v
theories/JsonToy.v
theories/Props_Json.v
theories/Builders.v
theories/SpecBuilders.v
theories/BuilderProofs.v
theories/Props_Builders.v
theories/SpecRestart.v
theories/ClientRestart.v
theories/Props_Restart.v
theories/SpecHonest.v
theories/ClientHonest.v
theories/Props_Honest.v
theories/Http.v
theories/SpecHttp.v
theories/HttpProofs.v
theories/Props_Http.v
theories/Files.v
theories/SpecFiles.v
theories/FilesProofs.v
theories/Props_Files.v
theories/Props_Mirror.v
theories/PrivateKeys.v
theories/SpecPrivate.v
theories/PrivateProofs.v
theories/Sha256.v
theories/TestVectors.v
theories/PrivateToy.v
theories/Props_Private.v
theories/SpecText.v
theories/TextSpecProofs.v
theories/Props_Text.v
theories/SpecAttack.v
theories/AttackProofs.v
theories/Props_Attack.v
theories/Ed25519.v
theories/InteropData.v
theories/Interop.v
theories/SpecCache.v
theories/CacheProofs.v
theories/Props_Cache.v
theories/Props_Sessions.v
theories/SpecEndToEnd.v
theories/EndToEndProofs.v
theories/Props_EndToEnd.v
theories/Props_Again.v
theories/SpecBuilt.v
theories/Props_Built.v
theories/Config.v
theories/Props_Config.v
theories/SpecDeployed.v
theories/DeployedProofs.v
theories/Props_Deployed.v
theories/SpecResumed.v
theories/ResumedProofs.v
theories/Props_Resumed.v
theories/SpecLive.v
theories/LiveProofs.v
theories/Props_Live.v
theories/SpecOngoing.v
theories/OngoingProofs.v
theories/CarefulProofs.v
theories/Props_Ongoing.v
theories/SpecDelegated.v
theories/DelegatedProofs.v
theories/Props_Delegated.v
theories/SpecStart.v
theories/StartProofs.v
theories/Props_Start.v
theories/SpecWork.v
theories/WorkProofs.v
theories/TreeWorkProofs.v
theories/Props_Work.v
theories/Copy.v
theories/SpecCopy.v
theories/CopyProofs.v
theories/Props_Copy.v
theories/SpecShared.v
theories/Props_Shared.v
theories/SpecNames.v
theories/NamesProofs.v
theories/Props_Names.v
theories/Props_Takeover.v
theories/SpecDetermined.v
theories/DeterminedProofs.v
theories/Props_Determined.v
theories/SpecFootprint.v
theories/FootprintProofs.v
theories/Props_Footprint.v
theories/SpecStores.v
theories/StoresProofs.v
theories/Props_Stores.v
theories/SpecForward.v
theories/ForwardProofs.v
theories/Props_Forward.v
theories/SpecErrors.v
theories/ErrorsProofs.v
theories/Props_Errors.v
theories/SpecTime.v
theories/TimeProofs.v
theories/Props_Time.v
theories/SpecMore.v
theories/MoreProofs.v
theories/MoreJsonProofs.v
theories/Props_More.v
theories/SpecOrder.v
theories/OrderProofs.v
theories/OrderClientProofs.v
theories/Props_Order.v
theories/SpecSpelling.v
theories/SpellingProofs.v
theories/Props_Spelling.v
theories/SpecWhy.v
theories/WhyProofs.v
theories/Props_Why.v
theories/SpecAgree.v
theories/AgreeProofs.v
theories/Props_Agree.v
theories/SpecCustody.v
theories/CustodyProofs.v
theories/Props_Custody.v
theories/SpecRevoked.v
theories/RevokedProofs.v
theories/Props_Revoked.v
theories/SpecRepeat.v
theories/Props_Repeat.v
theories/SpecUnmarked.v
theories/UnmarkedProofs.v
theories/Props_Unmarked.v
theories/Props_CatchUp.v
