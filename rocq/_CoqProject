-Q theories Verif
theories/Base.v
theories/EncodingModel.v
theories/EncodingSpec.v
theories/EncodingProofs.v
theories/Props_Encoding.v
theories/CodecModel.v
theories/CodecSpec.v
theories/CodecProofs.v
theories/FromBytesProofs.v
theories/Props_Codec.v
theories/PrngModel.v
theories/PrngSpec.v
theories/PrngProofs.v
theories/Props_Prng.v
theories/KeccakModel.v
theories/KeccakSpec.v
theories/KeccakProofs.v
theories/SpongeProofs.v
theories/ShakeProofs.v
theories/Props_Keccak.v
theories/ChachaModel.v
theories/ChachaSpec.v
theories/ChachaProofs.v
theories/Props_Chacha.v
theories/HashModel.v
theories/HashSpec.v
theories/HashProofs.v
theories/Props_Hash.v
theories/RingSpec.v
theories/Ring.v
theories/NtruModel.v
theories/PolyProofs.v
theories/NtruProofs.v
theories/SolveProofs.v
theories/Props_Ntru.v
theories/NttTables.v
theories/NttModel.v
theories/NttProofs.v
theories/NttInst.v
theories/NttApi.v
theories/Props_Ntt.v
theories/NttTables1024.v
theories/PolyModel.v
theories/PolyModelProofs.v
theories/FalconModel.v
theories/FalconSpec.v
theories/FalconProofs.v
theories/RecoveryProofs.v
theories/FalconExtra.v
theories/Props_Falcon.v
theories/SolSpec.v
theories/SolModel.v
theories/PackProofs.v
theories/SolProofs.v
theories/ChainRecover.v
theories/ChainProofs.v
theories/ChainExtra.v
theories/Props_Chain.v
theories/SolCodecModel.v
theories/SolCodecSpec.v
theories/SolCodecProofs.v
theories/Props_SolCodec.v
theories/SolWorldModel.v
theories/SolWorldProofs.v
theories/Props_World.v
theories/SamplerModel.v
theories/SamplerProofs.v
theories/Props_Sampler.v
theories/DrbgModel.v
theories/DrbgSpec.v
theories/DrbgProofs.v
theories/Aes.v
theories/Props_Drbg.v
theories/TextModel.v
theories/TextProofs.v
theories/CliModel.v
theories/CliProofs.v
theories/CliSignProofs.v
theories/Props_Cli.v
theories/KatModel.v
theories/Props_Kat.v
theories/FftModel.v
theories/FftSpec.v
theories/FftProofs.v
theories/FftAlg.v
theories/FftTree.v
theories/FftSample.v
theories/FftKey.v
theories/FftGs.v
theories/Props_Fft.v
theories/BlakeModel.v
theories/BlakeSpec.v
theories/BlakeProofs.v
theories/Props_Blake.v
theories/ExpBounds.v
theories/GaussSpec.v
theories/GaussTables.v
theories/SamplerRealModel.v
theories/ExpPoly.v
theories/SamplerReal.v
theories/Props_Gauss.v
theories/RoundCount.v
theories/SumOver.v
theories/SamplerDist.v
theories/Props_SamplerDist.v
theories/ExtTables.v
theories/ExtModel.v
theories/ExtProofs.v
theories/ExtVerify.v
theories/Props_Ext.v
theories/SigSolModel.v
theories/Props_SigSol.v
theories/FfnpModel.v
theories/FfnpProofs.v
theories/Props_Ffnp.v
theories/CTables.v
theories/CModel.v
theories/CNttProofs.v
theories/CCodecProofs.v
theories/CHashProofs.v
theories/Props_CCodec.v
theories/COpenSpec.v
theories/COpenProofs.v
theories/COpen16Proofs.v
theories/Props_CVerify.v
theories/CKeyModel.v
theories/CKeyProofs.v
theories/CKeyProofs2.v
theories/CKeyCodec.v
theories/CKeySpec.v
theories/CKeyFrame.v
theories/Props_CKey.v
theories/CEpProofs.v
theories/Props_CEp.v
theories/FprModel.v
theories/FprSpec.v
theories/FprBits.v
theories/FprRound.v
theories/FprMul.v
theories/FprAdd.v
theories/FprDiv.v
theories/FprConv.v
theories/FprMisc.v
theories/FprUnique.v
theories/Props_Fpr.v
theories/CRngModel.v
theories/CRngSpec.v
theories/CRngProofs.v
theories/Props_CRng.v
theories/CSamplerModel.v
theories/CSamplerProofs.v
theories/CSamplerReal.v
theories/Props_CSampler.v
theories/CSamplerDist.v
theories/Props_CSamplerDist.v
theories/CKatModel.v
theories/CKatProofs.v
theories/Props_CKat.v
