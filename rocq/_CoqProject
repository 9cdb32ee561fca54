-Q theories Verif
theories/Base.v
theories/Utf8.v
theories/Base64.v
theories/Sfv.v
theories/Component.v
theories/Crypto.v
theories/Params.v
theories/SigBase.v
theories/Http.v
theories/Hyper.v
theories/Digest.v
theories/Async.v
theories/SpecAsync.v
theories/BaseFacts.v
theories/Utf8Facts.v
theories/Base64Facts.v
theories/SfvFacts.v
theories/SfvRound.v
theories/SpecSfv.v
theories/SpecSfvProofs.v
theories/Props_Text.v
theories/Toy.v
theories/SpecCrypto.v
theories/CryptoProofs.v
theories/Props_Crypto.v
theories/SpecId.v
theories/IdProofs.v
theories/Props_Id.v
theories/SpecValue.v
theories/ValueProofs.v
theories/Props_Value.v
theories/TextFacts.v
theories/SpecParams.v
theories/ParamsProofs.v
theories/SpecBase.v
theories/BaseProofs.v
theories/SpecMsg.v
theories/HeaderProofs.v
theories/MsgProofs.v
theories/Decide.v
theories/Props_Params.v
theories/VerifyProofs.v
theories/SpecExtract.v
theories/ExtractProofs.v
theories/TamperProofs.v
theories/FrameProofs.v
theories/SpecSign.v
theories/SignProofs.v
theories/Props_Sign.v
theories/Props_Frame.v
theories/Props_Verify.v
theories/Props_Base.v
theories/SpecDigest.v
theories/SpecErrors.v
theories/DigestProofs.v
theories/Props_Digest.v
theories/AsyncProofs.v
theories/Props_Async.v
theories/Sha2.v
theories/Sha2Proofs.v
theories/SpecLabels.v
theories/LabelProofs.v
theories/Props_Labels.v
theories/ExactProofs.v
theories/Props_Exact.v
theories/Props_Sha.v
theories/SpecGrammar.v
theories/GrammarProofs.v
theories/SpecIdText.v
theories/IdTextProofs.v
theories/Props_Grammar.v
theories/Props_Panic.v
theories/SpecCanon.v
theories/CanonProofs.v
theories/Props_Canon.v
theories/ErrorProofs.v
theories/Props_Errors.v
theories/SpecSha.v
theories/CompressProofs.v
theories/CollisionProofs.v
theories/Props_Collision.v
theories/SpecApi.v
theories/Props_Api.v
theories/SpecForge.v
theories/ForgeProofs.v
theories/Props_Forge.v
theories/SpecInterop.v
theories/Props_Interop.v
theories/SpecTransit.v
theories/TransitProofs.v
theories/Props_Transit.v
theories/SpecRfc.v
theories/RfcProofs.v
theories/Props_Rfc.v
theories/SpecQuery.v
theories/QueryProofs.v
theories/Props_Query.v
theories/SpecChain.v
theories/ChainProofs.v
theories/Props_Chain.v
theories/Der.v
theories/SpecDer.v
theories/DerProofs.v
theories/Props_Der.v
theories/Rsa.v
theories/SpecRsa.v
theories/RsaProofs.v
theories/Props_Rsa.v
theories/Curve25519.v
theories/Conformance.v
theories/ConformanceEd.v
