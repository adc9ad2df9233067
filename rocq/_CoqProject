-Q theories Verif
theories/Base.v
theories/Arith.v
theories/Strings.v
theories/Bytes.v
theories/BigInt.v
theories/Bv.v
theories/Map.v
theories/Indexed.v
theories/Array.v
theories/Serde.v
theories/Spec.v
theories/TextSpec.v
theories/IoSpec.v
theories/RegSpec.v
theories/StoreSpec.v
theories/ArraySpec.v
theories/PWords.v
theories/PArith.v
theories/PShift.v
theories/PropsArith.v
theories/PropertiesArith.v
theories/PCompare.v
theories/PConv.v
theories/PropertiesCompare.v
theories/PText.v
theories/PParse.v
theories/PropsText.v
theories/PropsTextMore.v
theories/PropertiesText.v
theories/PIo.v
theories/PRegister.v
theories/PStore.v
theories/PIntern.v
theories/PInternZero.v
theories/PDense.v
theories/PSparse.v
theories/PConvert.v
theories/PSerde.v
theories/PArrays.v
theories/PropertiesArray.v
theories/PropertiesStore.v
theories/ExprSpec.v
theories/PMisc.v
theories/PropertiesMisc.v
theories/ProfileSpec.v
theories/PProfile.v
theories/PReject.v
theories/PArrayEq.v
theories/LawSpec.v
theories/PLaws.v
theories/PropertiesMore.v
theories/MachineSpec.v
theories/PMachine.v
theories/PropertiesMachine.v
theories/Fmt.v
theories/FmtSpec.v
theories/PFmt.v
theories/PropertiesFmt.v
theories/PPersist.v
theories/PropertiesPersist.v
theories/CallSpec.v
theories/PCall.v
theories/PShape.v
theories/PropertiesCall.v
theories/RepoTests.v
theories/ViewSpec.v
theories/PView.v
theories/PropertiesView.v
theories/PanicSpec.v
theories/PPanic.v
theories/PropertiesPanic.v
theories/ArrayPanicSpec.v
theories/PArrayPanic.v
theories/PropertiesArrayPanic.v
theories/ArrayMisuseSpec.v
theories/PArrayMisuse.v
theories/PropertiesArrayMisuse.v
theories/ParseSpec.v
theories/PReading.v
theories/PropertiesReading.v
theories/MixedSpec.v
theories/PMixed.v
theories/PropertiesMixed.v
theories/ReleaseSpec.v
theories/PRelease.v
theories/PropertiesRelease.v
theories/DirtySpec.v
theories/PDirty.v
theories/PropertiesDirty.v
theories/InterpSpec.v
theories/AnswerSpec.v
theories/PInterp.v
theories/PAnswer.v
theories/PropertiesInterp.v
theories/PropertiesAnswer.v
theories/TestSpec.v
theories/PTest.v
theories/PropertiesTest.v
theories/KindSpec.v
theories/PKind.v
theories/PropertiesKind.v
theories/Unwind.v
theories/UnwindSpec.v
theories/PUnwind.v
theories/PropertiesUnwind.v
theories/ArrayInterpSpec.v
theories/PArrayInterp.v
theories/PropertiesArrayInterp.v
theories/BvInterpSpec.v
theories/PBvInterp.v
theories/PropertiesBvInterp.v
theories/Wire.v
theories/WireSpec.v
theories/PWire.v
theories/PropertiesWire.v
theories/WholeSpec.v
theories/PWhole.v
theories/PropertiesWhole.v
theories/PMixedAny.v
theories/ReleaseInterpSpec.v
theories/PReleaseInterp.v
theories/PropertiesReleaseInterp.v
theories/RawArraySpec.v
theories/PRawArray.v
theories/PRawInterp.v
theories/PropertiesRawArray.v
theories/FullSpec.v
theories/PFull.v
theories/PropertiesFull.v
theories/StoreInterpSpec.v
theories/PStoreInterp.v
theories/PropertiesStoreInterp.v
theories/Pretty.v
theories/PrettySpec.v
theories/PPretty.v
theories/PropertiesPretty.v
theories/AllSpec.v
theories/PAll.v
theories/PropertiesAll.v
theories/ChanceSpec.v
theories/PChance.v
theories/PropertiesChance.v
theories/FullArraySpec.v
theories/PFullArray.v
theories/PropertiesFullArray.v
theories/EverySpec.v
theories/PEvery.v
theories/PropertiesEvery.v
theories/LongSpec.v
theories/PLong.v
theories/PropertiesLong.v
theories/BigSpec.v
theories/PBig.v
theories/PropertiesBig.v
theories/FreeSpec.v
theories/PFree.v
theories/PropertiesFree.v
theories/LoadSpec.v
theories/PLoad.v
theories/PLoadShift.v
theories/PLoadConcat.v
theories/PLoadText.v
theories/PropertiesLoad.v
theories/LoadArraySpec.v
theories/PLoadArray.v
theories/PropertiesLoadArray.v
theories/LoadSparseSpec.v
theories/PLoadSparse.v
theories/PLoadConvert.v
theories/PLoadSparsify.v
theories/PLoadSparsifyWide.v
theories/PropertiesLoadSparse.v
