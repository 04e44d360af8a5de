(* Element IDs: common/webmids.h:14-188 (kMkvVoid is in MMuxUtil.v). *)
From Verif Require Import Base.

Definition kMkvEBML : Z := 0x1A45DFA3.
Definition kMkvEBMLVersion : Z := 0x4286.
Definition kMkvEBMLReadVersion : Z := 0x42F7.
Definition kMkvEBMLMaxIDLength : Z := 0x42F2.
Definition kMkvEBMLMaxSizeLength : Z := 0x42F3.
Definition kMkvDocType : Z := 0x4282.
Definition kMkvDocTypeVersion : Z := 0x4287.
Definition kMkvDocTypeReadVersion : Z := 0x4285.
Definition kMkvSignatureSlot : Z := 0x1B538667.
Definition kMkvSignatureAlgo : Z := 0x7E8A.
Definition kMkvSignatureHash : Z := 0x7E9A.
Definition kMkvSignaturePublicKey : Z := 0x7EA5.
Definition kMkvSignature : Z := 0x7EB5.
Definition kMkvSignatureElements : Z := 0x7E5B.
Definition kMkvSignatureElementList : Z := 0x7E7B.
Definition kMkvSignedElement : Z := 0x6532.
Definition kMkvSegment : Z := 0x18538067.
Definition kMkvSeekHead : Z := 0x114D9B74.
Definition kMkvSeek : Z := 0x4DBB.
Definition kMkvSeekID : Z := 0x53AB.
Definition kMkvSeekPosition : Z := 0x53AC.
Definition kMkvInfo : Z := 0x1549A966.
Definition kMkvTimecodeScale : Z := 0x2AD7B1.
Definition kMkvDuration : Z := 0x4489.
Definition kMkvDateUTC : Z := 0x4461.
Definition kMkvTitle : Z := 0x7BA9.
Definition kMkvMuxingApp : Z := 0x4D80.
Definition kMkvWritingApp : Z := 0x5741.
Definition kMkvCluster : Z := 0x1F43B675.
Definition kMkvTimecode : Z := 0xE7.
Definition kMkvPrevSize : Z := 0xAB.
Definition kMkvBlockGroup : Z := 0xA0.
Definition kMkvBlock : Z := 0xA1.
Definition kMkvBlockDuration : Z := 0x9B.
Definition kMkvReferenceBlock : Z := 0xFB.
Definition kMkvLaceNumber : Z := 0xCC.
Definition kMkvSimpleBlock : Z := 0xA3.
Definition kMkvBlockAdditions : Z := 0x75A1.
Definition kMkvBlockMore : Z := 0xA6.
Definition kMkvBlockAddID : Z := 0xEE.
Definition kMkvBlockAdditional : Z := 0xA5.
Definition kMkvDiscardPadding : Z := 0x75A2.
Definition kMkvTracks : Z := 0x1654AE6B.
Definition kMkvTrackEntry : Z := 0xAE.
Definition kMkvTrackNumber : Z := 0xD7.
Definition kMkvTrackUID : Z := 0x73C5.
Definition kMkvTrackType : Z := 0x83.
Definition kMkvFlagEnabled : Z := 0xB9.
Definition kMkvFlagDefault : Z := 0x88.
Definition kMkvFlagForced : Z := 0x55AA.
Definition kMkvFlagLacing : Z := 0x9C.
Definition kMkvDefaultDuration : Z := 0x23E383.
Definition kMkvMaxBlockAdditionID : Z := 0x55EE.
Definition kMkvName : Z := 0x536E.
Definition kMkvLanguage : Z := 0x22B59C.
Definition kMkvCodecID : Z := 0x86.
Definition kMkvCodecPrivate : Z := 0x63A2.
Definition kMkvCodecName : Z := 0x258688.
Definition kMkvCodecDelay : Z := 0x56AA.
Definition kMkvSeekPreRoll : Z := 0x56BB.
Definition kMkvVideo : Z := 0xE0.
Definition kMkvFlagInterlaced : Z := 0x9A.
Definition kMkvStereoMode : Z := 0x53B8.
Definition kMkvAlphaMode : Z := 0x53C0.
Definition kMkvPixelWidth : Z := 0xB0.
Definition kMkvPixelHeight : Z := 0xBA.
Definition kMkvPixelCropBottom : Z := 0x54AA.
Definition kMkvPixelCropTop : Z := 0x54BB.
Definition kMkvPixelCropLeft : Z := 0x54CC.
Definition kMkvPixelCropRight : Z := 0x54DD.
Definition kMkvDisplayWidth : Z := 0x54B0.
Definition kMkvDisplayHeight : Z := 0x54BA.
Definition kMkvDisplayUnit : Z := 0x54B2.
Definition kMkvAspectRatioType : Z := 0x54B3.
Definition kMkvColourSpace : Z := 0x2EB524.
Definition kMkvFrameRate : Z := 0x2383E3.
Definition kMkvColour : Z := 0x55B0.
Definition kMkvMatrixCoefficients : Z := 0x55B1.
Definition kMkvBitsPerChannel : Z := 0x55B2.
Definition kMkvChromaSubsamplingHorz : Z := 0x55B3.
Definition kMkvChromaSubsamplingVert : Z := 0x55B4.
Definition kMkvCbSubsamplingHorz : Z := 0x55B5.
Definition kMkvCbSubsamplingVert : Z := 0x55B6.
Definition kMkvChromaSitingHorz : Z := 0x55B7.
Definition kMkvChromaSitingVert : Z := 0x55B8.
Definition kMkvRange : Z := 0x55B9.
Definition kMkvTransferCharacteristics : Z := 0x55BA.
Definition kMkvPrimaries : Z := 0x55BB.
Definition kMkvMaxCLL : Z := 0x55BC.
Definition kMkvMaxFALL : Z := 0x55BD.
Definition kMkvMasteringMetadata : Z := 0x55D0.
Definition kMkvPrimaryRChromaticityX : Z := 0x55D1.
Definition kMkvPrimaryRChromaticityY : Z := 0x55D2.
Definition kMkvPrimaryGChromaticityX : Z := 0x55D3.
Definition kMkvPrimaryGChromaticityY : Z := 0x55D4.
Definition kMkvPrimaryBChromaticityX : Z := 0x55D5.
Definition kMkvPrimaryBChromaticityY : Z := 0x55D6.
Definition kMkvWhitePointChromaticityX : Z := 0x55D7.
Definition kMkvWhitePointChromaticityY : Z := 0x55D8.
Definition kMkvLuminanceMax : Z := 0x55D9.
Definition kMkvLuminanceMin : Z := 0x55DA.
Definition kMkvProjection : Z := 0x7670.
Definition kMkvProjectionType : Z := 0x7671.
Definition kMkvProjectionPrivate : Z := 0x7672.
Definition kMkvProjectionPoseYaw : Z := 0x7673.
Definition kMkvProjectionPosePitch : Z := 0x7674.
Definition kMkvProjectionPoseRoll : Z := 0x7675.
Definition kMkvAudio : Z := 0xE1.
Definition kMkvSamplingFrequency : Z := 0xB5.
Definition kMkvOutputSamplingFrequency : Z := 0x78B5.
Definition kMkvChannels : Z := 0x9F.
Definition kMkvBitDepth : Z := 0x6264.
Definition kMkvContentEncodings : Z := 0x6D80.
Definition kMkvContentEncoding : Z := 0x6240.
Definition kMkvContentEncodingOrder : Z := 0x5031.
Definition kMkvContentEncodingScope : Z := 0x5032.
Definition kMkvContentEncodingType : Z := 0x5033.
Definition kMkvContentCompression : Z := 0x5034.
Definition kMkvContentCompAlgo : Z := 0x4254.
Definition kMkvContentCompSettings : Z := 0x4255.
Definition kMkvContentEncryption : Z := 0x5035.
Definition kMkvContentEncAlgo : Z := 0x47E1.
Definition kMkvContentEncKeyID : Z := 0x47E2.
Definition kMkvContentSignature : Z := 0x47E3.
Definition kMkvContentSigKeyID : Z := 0x47E4.
Definition kMkvContentSigAlgo : Z := 0x47E5.
Definition kMkvContentSigHashAlgo : Z := 0x47E6.
Definition kMkvContentEncAESSettings : Z := 0x47E7.
Definition kMkvAESSettingsCipherMode : Z := 0x47E8.
Definition kMkvAESSettingsCipherInitData : Z := 0x47E9.
Definition kMkvCues : Z := 0x1C53BB6B.
Definition kMkvCuePoint : Z := 0xBB.
Definition kMkvCueTime : Z := 0xB3.
Definition kMkvCueTrackPositions : Z := 0xB7.
Definition kMkvCueTrack : Z := 0xF7.
Definition kMkvCueClusterPosition : Z := 0xF1.
Definition kMkvCueBlockNumber : Z := 0x5378.
Definition kMkvChapters : Z := 0x1043A770.
Definition kMkvEditionEntry : Z := 0x45B9.
Definition kMkvChapterAtom : Z := 0xB6.
Definition kMkvChapterUID : Z := 0x73C4.
Definition kMkvChapterStringUID : Z := 0x5654.
Definition kMkvChapterTimeStart : Z := 0x91.
Definition kMkvChapterTimeEnd : Z := 0x92.
Definition kMkvChapterDisplay : Z := 0x80.
Definition kMkvChapString : Z := 0x85.
Definition kMkvChapLanguage : Z := 0x437C.
Definition kMkvChapCountry : Z := 0x437E.
Definition kMkvTags : Z := 0x1254C367.
Definition kMkvTag : Z := 0x7373.
Definition kMkvSimpleTag : Z := 0x67C8.
Definition kMkvTagName : Z := 0x45A3.
Definition kMkvTagString : Z := 0x4487.
