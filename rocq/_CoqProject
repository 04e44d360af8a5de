-Q theories Verif
theories/Base.v
theories/EbmlSpec.v
theories/MWriter.v
theories/WriterSpec.v
theories/MMuxUtil.v
theories/PWriter.v
theories/PMuxUtil.v
theories/MParUtil.v
theories/ReaderSpec.v
theories/PParUtil.v
theories/EbmlPropSpec.v
theories/PEbml.v
theories/PropEbml.v
theories/MFloat.v
theories/MPes.v
theories/PesSpec.v
theories/PPes.v
theories/PPesPts.v
theories/PPesStream.v
theories/PPesParse.v
theories/PTs.v
theories/PropPes.v
theories/MParBlock.v
theories/LacingSpec.v
theories/PParBlock.v
theories/PropBlock.v
theories/Ids.v
theories/MMuxBlock.v
theories/BlockSpec.v
theories/PMuxBlock.v
theories/PropMuxBlock.v
theories/MParCluster.v
theories/ClusterSpec.v
theories/PParCluster.v
theories/ClusterSafeSpec.v
theories/PClusterSafe.v
theories/PropCluster.v
theories/MMuxMeta.v
theories/MetaSpec.v
theories/PMeta.v
theories/PMetaObj.v
theories/PMetaObj2.v
theories/PropMeta.v
theories/MMuxSegment.v
theories/TracksSpec.v
theories/PMuxTracks.v
theories/PropTracks.v
theories/PSegRun.v
theories/PSegCluster.v
theories/SegmentSpec.v
theories/PSegAcc.v
theories/PSegStream.v
theories/MuxFileSpec.v
theories/PSegHead.v
theories/PSegFin.v
theories/PSegFile.v
theories/PSegLayout.v
theories/PropMux.v
theories/MVtt.v
theories/VttSpec.v
theories/PVtt.v
theories/PVtt2.v
theories/PVtt3.v
theories/PropVtt.v
theories/MVp9.v
theories/Vp9Spec.v
theories/PVp9.v
theories/PVp9b.v
theories/PVp9c.v
theories/PVp9d.v
theories/PropVp9.v
theories/WpSpec.v
theories/MWp.v
theories/MWpBlock.v
theories/MWpTree.v
theories/PWp1.v
theories/PWp2.v
theories/PWp3.v
theories/PWp4.v
theories/PWp5.v
theories/PWp6.v
theories/PWp7.v
theories/PWp8.v
theories/PWp9.v
theories/PWp10.v
theories/PropWp.v
theories/NestSpec.v
theories/PWp11.v
theories/PropWpNest.v
theories/PWp12.v
theories/PropWpSize.v
theories/DeepSpec.v
theories/PWp13.v
theories/PropWpDeep.v
theories/MParMeta.v
theories/ReadBackSpec.v
theories/PParMeta.v
theories/PParMeta2.v
theories/PParDur.v
theories/PropParMeta.v
theories/MParTable.v
theories/TableSpec.v
theories/PParTable.v
theories/PropParTable.v
theories/MParCues.v
theories/CueReadSpec.v
theories/PParCues.v
theories/PParCues2.v
theories/PropParCues.v
theories/MMuxMove.v
theories/PMove.v
theories/MoveSpec.v
theories/PMove2.v
theories/PropMove.v
theories/MParTrack.v
theories/PParFloat.v
theories/PTick.v
theories/ReadTrackSpec.v
theories/PParTrack.v
theories/PParTrack2.v
theories/PParTrack3.v
theories/PParTrack4.v
theories/PropParTrack.v
theories/MParSegment.v
theories/SegReadSpec.v
theories/PParSegment.v
theories/PParSegment2.v
theories/PParSegment3.v
theories/PropParSegment.v
theories/SegSafeSpec.v
theories/PSegSafe.v
theories/PSegFind.v
theories/PropSegSafe.v
theories/PWpRead.v
theories/WpDocSpec.v
theories/PWpLeaf.v
theories/WpBlockSpec.v
theories/PWpBlk.v
theories/PWpBlkInv.v
theories/PWpDoc.v
theories/PWpDoc2.v
theories/PWpDoc3.v
theories/PropWpDoc.v
theories/PWpSkip.v
theories/PropWpSkip.v
theories/PropWpBlock.v
theories/WpMuxSpec.v
theories/PWpMux.v
theories/PWpMux2.v
theories/PWpMux3.v
theories/PWpMux4.v
theories/PropWpMux.v
theories/WpSeekSpec.v
theories/PWpSeek.v
theories/PWpSeek2.v
theories/PropWpSeek.v
theories/MParWalk.v
theories/WalkSpec.v
theories/PParWalk.v
theories/PParWalk2.v
theories/PParWalk3.v
theories/PParWalk4.v
theories/PParWalk5.v
theories/MParCueSeek.v
theories/CueSeekSpec.v
theories/WalkFileSpec.v
theories/PTrackSeek4.v
theories/PTrackSeek5.v
theories/SeekFileSpec.v
theories/PCueSeek.v
theories/PParWalk6.v
theories/PropWalk.v
theories/TrackSeekSpec.v
theories/PTrackSeek.v
theories/PTrackSeek2.v
theories/PTrackSeek3.v
theories/PropTrackSeek.v
theories/CueFileSpec.v
theories/PropCueSeek.v
theories/SourceSpec.v
theories/MReader.v
theories/PReader.v
theories/MFile.v
theories/PFile.v
theories/PropReader.v
theories/HdrSpec.v
theories/MHdr.v
theories/PHdr.v
theories/PropHdr.v
theories/DomSpec.v
theories/MDom.v
theories/PDom.v
theories/DomMuxSpec.v
theories/PropDom.v
theories/ProjSpec.v
theories/MProj.v
theories/PProj.v
theories/PropProj.v
theories/ChunkSpec.v
theories/MChunk.v
theories/PChunk.v
theories/PChunk2.v
theories/PropChunk.v
theories/EndianSpec.v
theories/MEndian.v
theories/PEndian.v
theories/PropEndian.v
theories/VttMuxSpec.v
theories/MVttMux.v
theories/PVttMux.v
theories/PVttMux2.v
theories/PropVttMux.v
theories/VttChapSpec.v
theories/MVttChap.v
theories/PVttChap.v
theories/PropVttChap.v
theories/VttNameSpec.v
theories/MVttName.v
theories/PVttName.v
theories/PropVttName.v
theories/VttFileSpec.v
theories/MVttFile.v
theories/PVttFile.v
theories/PropVttFile.v
theories/VttDumpSpec.v
theories/MVttDump.v
theories/PVttDump.v
theories/PropVttDump.v
