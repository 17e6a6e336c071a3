-Q theories Verif
theories/Base.v
theories/Prims.v
theories/SpecWire.v
theories/PrimFacts.v
theories/PrimProps.v
theories/Properties_Prims.v
theories/Types.v
theories/Codec.v
theories/BinEnc.v
theories/BinDec.v
theories/Amino.v
theories/Sha256.v
theories/Demo.v
theories/DemoFacts.v
theories/FuelFacts.v
theories/DecFacts.v
theories/DecProps.v
theories/Registry.v
theories/SpecRegistry.v
theories/RegistryFacts.v
theories/RegistryProps.v
theories/Properties_Registry.v
theories/ValueInd.v
theories/Sane.v
theories/DecTerm.v
theories/DecSize.v
theories/Typing.v
theories/DecSafe.v
theories/Properties_Decode.v
theories/SpecNorm.v
theories/EncFacts.v
theories/RoundTrip.v
theories/TopFacts.v
theories/SpecSupported.v
theories/SupportedFacts.v
theories/TopProps.v
theories/TopFlat.v
theories/FrameFacts.v
theories/Properties_RoundTrip.v
theories/ScalarFacts.v
theories/Properties_Top.v
theories/SpecProto.v
theories/ProtoFacts.v
theories/Properties_Proto.v
theories/SpecStruct.v
theories/SkipFacts.v
theories/KeptFacts.v
theories/ReuseFacts.v
theories/Properties_Struct.v
theories/SpecVersion.v
theories/VersionFacts.v
theories/Properties_Version.v
theories/SpecKin.v
theories/Careful.v
theories/KinFacts.v
theories/Properties_Kin.v
theories/SpecReencode.v
theories/ReencodeFacts.v
theories/SpecWritable.v
theories/WritableFacts.v
theories/SturdyFacts.v
theories/SpecDefault.v
theories/DefaultFacts.v
theories/SpecContents.v
theories/ContentsFacts.v
theories/Properties_Default.v
theories/Stream.v
theories/SpecStream.v
theories/StreamFacts.v
theories/Properties_Stream.v
theories/Scan.v
theories/SpecScan.v
theories/ScanFacts.v
theories/Properties_Scan.v
theories/DeepCopy.v
theories/SpecCopy.v
theories/CopyFacts.v
theories/Properties_Copy.v
theories/CopyMethods.v
theories/Properties_CopyMethods.v
theories/SpecFrame.v
theories/OrderFacts.v
theories/Properties_Frame.v
theories/SpecRead.v
theories/ReadFacts.v
theories/ReadAccept.v
theories/ReadSound.v
theories/Properties_Read.v
theories/Conc.v
theories/SpecConc.v
theories/ConcFacts.v
theories/ConcProps.v
theories/Properties_Conc.v
theories/SpecTags.v
theories/TagFacts.v
theories/Properties_Tags.v
theories/JsonText.v
theories/Json.v
theories/SpecJson.v
theories/JsonTextFacts.v
theories/JsonFacts.v
theories/JsonProps.v
theories/Properties_Json.v
theories/JsonIndent.v
theories/SpecLayout.v
theories/LayoutFacts.v
theories/Properties_Layout.v
theories/SpecJsonSafe.v
theories/JsonSafe.v
theories/JsonRead.v
theories/Properties_JsonSafe.v
theories/JsonEquiv.v
theories/Entry.v
theories/Properties_Entry.v
theories/Print.v
theories/SpecPrint.v
theories/PrintFacts.v
theories/Properties_Print.v
theories/Tool.v
theories/SpecTool.v
theories/Properties_Tool.v
theories/Properties_Reencode.v
theories/Properties_Writable.v
theories/SpecJsonAgain.v
theories/JsonAgainFacts.v
theories/Properties_JsonAgain.v
theories/SpecJsonWritable.v
theories/JsonWritableFacts.v
theories/Properties_JsonWritable.v
theories/SpecAdmit.v
theories/AdmitFacts.v
theories/Properties_Admit.v
theories/SpecMore.v
theories/MoreFacts.v
theories/Properties_More.v
theories/SpecThrough.v
theories/ThroughFacts.v
theories/Properties_Through.v
theories/SpecEcho.v
theories/EchoFacts.v
theories/Properties_Echo.v
theories/SpecMembers.v
theories/MembersFacts.v
theories/Properties_Members.v
theories/SpecCut.v
theories/CutFacts.v
theories/Properties_Cut.v
theories/SpecJsonReads.v
theories/JsonReadsFacts.v
theories/Properties_JsonReads.v
theories/SpecJsonSize.v
theories/JsonSizeFacts.v
theories/Properties_JsonSize.v
theories/SpecJsonEcho.v
theories/JsonEchoFacts.v
theories/Properties_JsonEcho.v
theories/SpecBulk.v
theories/BulkFacts.v
theories/JsonBulkFacts.v
theories/Properties_Bulk.v
theories/SpecLean.v
theories/LeanFacts.v
theories/Properties_Lean.v
theories/Properties_JsonInj.v
theories/SpecRename.v
theories/RenameFacts.v
theories/Properties_Rename.v
theories/SpecRetag.v
theories/RetagFacts.v
theories/Properties_Retag.v
theories/SpecConcat.v
theories/ConcatFacts.v
theories/Properties_Concat.v
theories/SpecWiden.v
theories/WidenFacts.v
theories/Properties_Widen.v
theories/SpecWidenJson.v
theories/JsonWidenFacts.v
theories/Properties_WidenJson.v
theories/SpecNamed.v
theories/NamedFacts.v
theories/JsonNamedFacts.v
theories/Properties_Named.v
theories/SpecArray.v
theories/ArrayFacts.v
theories/Properties_Array.v
theories/SpecPointer.v
theories/PointerFacts.v
theories/Properties_Pointer.v
theories/SpecLone.v
theories/LoneFacts.v
theories/Properties_Lone.v
theories/SpecTwin.v
theories/TwinFacts.v
theories/Properties_Twin.v
theories/SpecPointerJson.v
theories/PointerJsonFacts.v
theories/Properties_PointerJson.v
theories/SpecPointee.v
theories/PointeeFacts.v
theories/Properties_Pointee.v
