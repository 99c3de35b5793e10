-Q theories Verif
theories/Base.v
theories/BaseP.v
theories/Cert_Data.v
theories/M_AES.v
theories/M_Base64.v
theories/M_Bignum.v
theories/M_CRC.v
theories/M_ChaCha.v
theories/M_GCM.v
theories/M_HKDF.v
theories/M_Hash.v
theories/M_Leak.v
theories/M_LeakCipher.v
theories/M_LeakCrc.v
theories/M_LeakHash.v
theories/M_LeakHash2.v
theories/M_LeakPrime.v
theories/M_LeakText.v
theories/M_MD.v
theories/M_MD5.v
theories/M_Mont.v
theories/M_Prime.v
theories/M_RSA.v
theories/M_Random.v
theories/M_SHA1.v
theories/M_SHA2.v
theories/M_SHA3.v
theories/M_Threads.v
theories/M_Trust.v
theories/M_X25519.v
theories/M_X509.v
theories/P_AES.v
theories/P_Attr.v
theories/P_Base64.v
theories/P_Base9.v
theories/P_Bignum.v
theories/P_CRC.v
theories/P_CRC2.v
theories/P_Cert.v
theories/P_ChaCha.v
theories/P_Const.v
theories/P_DH.v
theories/P_Date.v
theories/P_Edwards.v
theories/P_F25519.v
theories/P_Fermat.v
theories/P_Forge.v
theories/P_GCM.v
theories/P_GF2.v
theories/P_GField.v
theories/P_GHM.v
theories/P_Ghash.v
theories/P_HKDF.v
theories/P_Hash.v
theories/P_Keccak.v
theories/P_Ladder.v
theories/P_Leak.v
theories/P_LeakCipher.v
theories/P_LeakHash.v
theories/P_LeakHash2.v
theories/P_LeakPrime.v
theories/P_MD.v
theories/P_MD5.v
theories/P_MDC.v
theories/P_MDS.v
theories/P_MR.v
theories/P_Mont.v
theories/P_Name.v
theories/P_Order.v
theories/P_Pem.v
theories/P_Prime.v
theories/P_Prime25519.v
theories/P_RSA.v
theories/P_Random.v
theories/P_SHA1.v
theories/P_SHA2.v
theories/P_SHA3.v
theories/P_SHA3b.v
theories/P_Sine.v
theories/P_Term.v
theories/P_Trust.v
theories/P_Verify.v
theories/P_Word.v
theories/P_X25519.v
theories/P_X25519Mask.v
theories/P_X509.v
theories/Prop_AES.v
theories/Prop_Alter.v
theories/Prop_Attr.v
theories/Prop_Base64.v
theories/Prop_Bignum.v
theories/Prop_Bind.v
theories/Prop_CRC.v
theories/Prop_CRC2.v
theories/Prop_CRC3.v
theories/Prop_ChaCha.v
theories/Prop_Chain.v
theories/Prop_Collide.v
theories/Prop_Commit.v
theories/Prop_Common.v
theories/Prop_Const.v
theories/Prop_Cost.v
theories/Prop_DH.v
theories/Prop_Distinct.v
theories/Prop_Forge.v
theories/Prop_Fresh.v
theories/Prop_GCM.v
theories/Prop_GCM2.v
theories/Prop_HKDF.v
theories/Prop_Hash.v
theories/Prop_Imposter.v
theories/Prop_Key.v
theories/Prop_Keys.v
theories/Prop_Leak.v
theories/Prop_LeakCipher.v
theories/Prop_LeakCrc.v
theories/Prop_LeakHash.v
theories/Prop_LeakHash2.v
theories/Prop_LeakPrime.v
theories/Prop_LeakText.v
theories/Prop_Mont.v
theories/Prop_Names.v
theories/Prop_Predict.v
theories/Prop_Prime.v
theories/Prop_RSA.v
theories/Prop_RSA2.v
theories/Prop_Random.v
theories/Prop_Reduce.v
theories/Prop_Replay.v
theories/Prop_Resign.v
theories/Prop_Salt.v
theories/Prop_Separate.v
theories/Prop_Server.v
theories/Prop_Short.v
theories/Prop_Space.v
theories/Prop_Sponge.v
theories/Prop_System.v
theories/Prop_TLS.v
theories/Prop_Threads.v
theories/Prop_Times.v
theories/Prop_Trust.v
theories/Prop_Trust2.v
theories/Prop_Twin.v
theories/Prop_Whole.v
theories/Prop_X25519.v
theories/Prop_X509.v
theories/RSA_Keys.v
theories/S_AES.v
theories/S_Base64.v
theories/S_Bignum.v
theories/S_CRC.v
theories/S_ChaCha.v
theories/S_Const.v
theories/S_GCM.v
theories/S_HKDF.v
theories/S_Hash.v
theories/S_MD.v
theories/S_MD5.v
theories/S_Prime.v
theories/S_RSA.v
theories/S_SHA1.v
theories/S_SHA2.v
theories/S_SHA3.v
theories/S_Trust.v
theories/S_Verify.v
theories/S_Word.v
theories/S_X25519.v
theories/S_X509.v
