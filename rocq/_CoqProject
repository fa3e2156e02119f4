-Q theories Verif
theories/Base.v
theories/Words.v
theories/SM3Spec.v
theories/SM3Model.v
theories/SM3Proofs.v
theories/PropertiesSM3.v
theories/GroupLaw.v
theories/JacField.v
theories/ECSpec.v
theories/ECModel.v
theories/Fermat.v
theories/NumTheory.v
theories/FastMod.v
theories/Primes.v
theories/ECBridge.v
theories/ECProofs.v
theories/BaseOrder.v
theories/PropertiesCurve.v
theories/CryptoByte.v
theories/SM2Spec.v
theories/SM2Model.v
theories/SM2SigProofs.v
theories/PropertiesSM2Sig.v
theories/SM2EncProofs.v
theories/PropertiesSM2Enc.v
theories/Utf8.v
theories/BMPModel.v
theories/RC2Spec.v
theories/RC2Model.v
theories/RC2Proofs.v
theories/PbkdfSpec.v
theories/PbkdfModel.v
theories/PbkdfProofs.v
theories/PropertiesP12Prim.v
theories/Asn1.v
theories/Asn1Proofs.v
theories/KeysModel.v
theories/KeysProofs.v
theories/PropertiesKeys.v
theories/Asn1Safe.v
theories/P12Spec.v
theories/P12Model.v
theories/P12Proofs.v
theories/P12Enc.v
theories/P12Round.v
theories/P12Cipher.v
theories/P12Open.v
theories/PropertiesP12.v
theories/X509Model.v
theories/X509Sig.v
theories/PropertiesX509Sig.v
theories/X509Build.v
theories/X509Proofs.v
theories/X509StrProofs.v
theories/PropertiesX509Str.v
theories/X509ExtProofs.v
theories/X509NCProofs.v
theories/PropertiesX509Ext.v
theories/PropertiesX509Build.v
theories/X509CertProofs.v
theories/PropertiesX509Cert.v
theories/X509Safe.v
theories/PropertiesX509Safe.v
theories/PropertiesX509Exts.v
theories/Pkcs7Model.v
theories/Pkcs7Proofs.v
theories/Pkcs7Round.v
theories/PropertiesPkcs7.v
theories/PropertiesPkcs7Sign.v
theories/X509Crl.v
theories/X509CrlProofs.v
theories/X509Time.v
theories/PropertiesX509Crl.v
theories/X509Spki.v
theories/X509CsrProofs.v
theories/PropertiesX509Csr.v
theories/X509CreateProofs.v
theories/PropertiesX509Create.v
theories/PropertiesP12Pem.v
theories/PropertiesKeysEnc.v
theories/Mem.v
theories/MemSM.v
theories/MemSMProofs.v
theories/MemEnc.v
theories/PropertiesMem.v
theories/MemP12.v
theories/MemPbkdf.v
theories/MemCbc.v
theories/MemPbe.v
theories/PropertiesMemP12.v
theories/PropertiesX509Time.v
theories/X509Reg.v
theories/PropertiesX509Reg.v
theories/PropertiesX509Names.v
theories/PropertiesX509Alg.v
theories/Pock.v
theories/NistPrimes.v
theories/PropertiesKeysCurves.v
theories/PropertiesNoPanic.v
theories/PropertiesTrunc.v
theories/P12File.v
theories/PropertiesP12File.v
theories/PropertiesKeysPanic.v
theories/MemCsr.v
theories/PropertiesMemCsr.v
theories/BigMem.v
theories/PropertiesBig.v
theories/PropertiesStore.v
theories/ConcModel.v
theories/ConcProofs.v
theories/PropertiesConc.v
theories/PropertiesRandom.v
theories/PropertiesSpki.v
theories/ReaderModel.v
theories/PropertiesReader.v
theories/MemSign.v
theories/PropertiesMemSign.v
theories/PropertiesSec1.v
theories/SM2Gen.v
theories/SM2GenProofs.v
theories/PropertiesGenCurve.v
theories/Pem.v
theories/PemProofs.v
theories/PropertiesPem.v
theories/SM2GenEnc.v
theories/PropertiesGenEnc.v
theories/PropertiesX509Written.v
theories/PropertiesWire.v
theories/PropertiesWireCert.v
theories/PropertiesWireP7.v
theories/PropertiesWireTbs.v
theories/PropertiesWireCrl.v
theories/PropertiesWireCsr.v
theories/PropertiesWireKeys.v
theories/MemParse.v
theories/PropertiesMemCert.v
theories/PropertiesX509Read.v
theories/PropertiesX509ExtRead.v
theories/PropertiesPkcs1.v
