-Q theories Verif
theories/Base.v
theories/BaseLemmas.v
theories/Model_Container.v
theories/Model_Codec.v
theories/Spec_Codec.v
theories/Proof_Codec16.v
theories/Proof_Codec64.v
theories/Proof_CodecApi.v
theories/Spec_CodecAny.v
theories/Proof_CodecAny.v
theories/Prop_CodecAny.v
theories/Prop_Codec.v
theories/Spec_Bytes.v
theories/Model_Memory.v
theories/BytesLemmas.v
theories/Proof_Memory.v
theories/Proof_Memory2.v
theories/Proof_Memory3.v
theories/Proof_Memory4.v
theories/Proof_Memory5.v
theories/Prop_Memory.v
theories/Spec_Sha.v
theories/Model_Update.v
theories/Model_Sha.v
theories/Spec_Hash.v
theories/Proof_ShaCore.v
theories/Proof_Sha2Core.v
theories/Proof_Soak.v
theories/Proof_Sha.v
theories/Proof_ShaHist.v
theories/Proof_ShaApi.v
theories/Prop_Sha.v
theories/Model_Mac.v
theories/Spec_Mac.v
theories/Proof_Mac.v
theories/Spec_Hmac.v
theories/Model_Hmac.v
theories/Proof_Hmac.v
theories/Prop_Hmac.v
theories/Spec_Poly.v
theories/Model_Poly.v
theories/Proof_PolyCore.v
theories/Proof_Poly.v
theories/Prop_Poly.v
theories/Spec_ChaCha.v
theories/Model_Cipher.v
theories/Spec_Range.v
theories/Spec_Cipher.v
theories/Proof_Range.v
theories/Proof_ChaChaCore.v
theories/Proof_ChaCha.v
theories/Proof_ChaChaReuse.v
theories/Prop_Cipher.v
theories/Model_Aead.v
theories/Spec_Aead.v
theories/Proof_Aead.v
theories/Prop_Aead.v
theories/Model_Kdf.v
theories/Spec_Kdf.v
theories/Proof_Kdf.v
theories/Proof_Kdf2.v
theories/Proof_Kdf3.v
theories/Prop_Kdf.v
theories/Model_Dispatch.v
theories/Spec_Dispatch.v
theories/Proof_Dispatch.v
theories/Prop_Dispatch.v
theories/Model_Options.v
theories/Prop_Options.v
theories/Model_Erase.v
theories/Proof_Erase.v
theories/Prop_Erase.v
theories/Model_X86.v
theories/Model_ChaChaAsm.v
theories/Spec_ChaChaAsm.v
theories/Proof_X86Sym.v
theories/Proof_ChaChaAsm.v
theories/Proof_ChaChaAsm2.v
theories/Proof_ChaChaAsm3.v
theories/Proof_ChaChaAsm4.v
theories/Prop_ChaChaAsm.v
theories/Model_ShaAsm.v
theories/Proof_ShaAsm.v
theories/Proof_ShaAsm2.v
theories/Proof_ShaAsm3.v
theories/Prop_ShaAsm.v
theories/Spec_Portable.v
theories/Proof_Portable.v
theories/Proof_Portable2.v
theories/Prop_Portable.v
theories/Model_Asm.v
theories/Spec_Abi.v
theories/Proof_Asm.v
theories/Proof_AsmX.v
theories/Proof_AsmFrame.v
theories/Proof_AsmChaCha.v
theories/Proof_AsmChaCha2.v
theories/Proof_AsmChaCha3.v
theories/Proof_AsmChaCha4.v
theories/Proof_AsmSha.v
theories/Proof_AsmSha2.v
theories/Proof_AsmCpuid.v
theories/Prop_Abi.v
theories/Prop_EraseAsm.v
theories/Model_Leak.v
theories/Spec_Leak.v
theories/Proof_Leak.v
theories/Proof_Leak2.v
theories/Proof_Leak3.v
theories/Prop_Leak.v
theories/Model_Leak2.v
theories/Spec_Leak2.v
theories/Proof_Leak4.v
theories/Proof_Leak5.v
theories/Proof_Leak6.v
theories/Prop_Leak2.v
theories/Model_Leak3.v
theories/Spec_Leak3.v
theories/Proof_Leak7.v
theories/Proof_Leak8.v
theories/Proof_Leak9.v
theories/Prop_Leak3.v
theories/Model_AppNames.v
theories/Model_App.v
theories/Spec_AppNames.v
theories/Spec_App.v
theories/Spec_App2.v
theories/Proof_App.v
theories/Proof_App2.v
theories/Proof_App3.v
theories/Proof_App4.v
theories/Proof_App5.v
theories/Proof_App6.v
theories/Proof_App7.v
theories/Prop_App.v
theories/Model_Double.v
theories/Spec_Double.v
theories/Proof_Double.v
theories/Proof_Double2.v
theories/Prop_Double.v
theories/Model_Literal.v
theories/Prop_Literal.v
theories/Model_View.v
theories/Spec_View.v
theories/Proof_View.v
theories/Prop_View.v
theories/Model_Test.v
theories/Spec_Test.v
theories/Proof_Test.v
theories/Proof_Test2.v
theories/Proof_Test3.v
theories/Proof_Test4.v
theories/Prop_Test.v
theories/Model_Codegen.v
theories/Spec_Cpp.v
theories/Spec_Codegen.v
theories/Proof_Codegen.v
theories/Proof_Codegen2.v
theories/Prop_Codegen.v
theories/Spec_Sizes.v
theories/Proof_Sizes.v
theories/Prop_Sizes.v
theories/Model_KdfMem.v
theories/Spec_KdfMem.v
theories/Proof_KdfMem.v
theories/Prop_KdfMem.v
theories/Spec_KeySize.v
theories/Prop_KeySize.v
theories/Prop_Reuse.v
theories/Model_Alloc.v
theories/Spec_Alloc.v
theories/Proof_Alloc.v
theories/Proof_Alloc2.v
theories/Proof_Alloc3.v
theories/Prop_Alloc.v
theories/Model_CodecMem.v
theories/Spec_CodecMem.v
theories/Proof_CodecMem.v
theories/Prop_CodecMem.v
theories/Model_Codec32.v
theories/Proof_Codec32.v
theories/Prop_Codec32.v
theories/Model_Default.v
theories/Spec_Default.v
theories/Proof_Default.v
theories/Proof_Default2.v
theories/Prop_Default.v
theories/Spec_Moves.v
theories/Proof_Moves.v
theories/Proof_Moves2.v
theories/Proof_Moves3.v
theories/Proof_Moves4.v
theories/Prop_Moves.v
theories/Model_Traits.v
theories/Spec_Traits.v
theories/Prop_Traits.v
theories/Model_Objects.v
theories/Spec_Objects.v
theories/Prop_Objects.v
theories/Model_Threads.v
theories/Spec_Threads.v
theories/Proof_Threads.v
theories/Prop_Threads.v
theories/Proof_ThreadsSpec.v
theories/Proof_ThreadsSeq.v
theories/Prop_ThreadsSpec.v
theories/Model_EraseSha.v
theories/Proof_EraseSha.v
theories/Prop_EraseSha.v
