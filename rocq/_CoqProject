-Q theories Verif

theories/Prelude.v
theories/PreludeFacts.v
theories/Mat.v
theories/MatFacts.v
theories/Num.v
theories/Fields.v
theories/GridIO.v
theories/GridIOFacts.v
theories/Float64.v
theories/Float64Facts.v
theories/SpecGrid.v
theories/GridIOProofs.v
theories/Util.v
theories/UtilFacts.v
theories/ComputeGrid.v
theories/ComputeGridFacts.v
theories/TomitFacts.v
theories/SpecHalf.v
theories/TomitSpec.v
theories/Refine.v
theories/MkGrid.v
theories/RefineFacts.v
theories/Regrid.v
theories/RegridFacts.v
theories/SpecRegrid.v
theories/SourceFacts.v
theories/MatchEdges.v
theories/AddFringe.v
theories/Stitch.v
theories/SpecTiles.v
theories/MatchEdgesFacts.v
theories/FringeFacts.v
theories/Cli.v
theories/SpecStitch.v
theories/StitchFacts.v
theories/Float32.v
theories/Float32Facts.v
theories/MdsMeta.v
theories/Mds.v
theories/SpecMds.v
theories/SpecGlob.v
theories/MdsTextFacts.v
theories/GlobFacts.v
theories/MdsParseFacts.v
theories/MdsScanFacts.v
theories/MdsFacts.v
theories/GetObcs.v
theories/SpecObcs.v
theories/GetObcsFacts.v
theories/RealInst.v
theories/RealFacts.v
theories/SphereFacts.v
theories/SphereCut.v
theories/SphereGeod.v
theories/SphereGrid.v
theories/Samples.v
theories/PropGridIO.v
theories/PropUtil.v
theories/PropFill.v
theories/PropMkGrid.v
theories/PropRegrid.v
theories/PropPair.v
theories/PropMatchEdges.v
theories/PropFringe.v
theories/PropStitch.v
theories/PropCli.v
theories/PropMds.v
theories/PropObcs.v
theories/PropGeom.v
theories/SphereArea.v
theories/PropSphere.v
theories/PropDegenerate.v
theories/RdMds.v
theories/SpecRdMds.v
theories/TileTextFacts.v
theories/RdMdsFacts.v
theories/RdMdsProofs.v
theories/RdMdsCalls.v
theories/SpecMapTile.v
theories/MapTileProofs.v
theories/PropRdMds.v
theories/PropMapTile.v
theories/FmtE.v
theories/PyFloat.v
theories/SpecTimes.v
theories/FmtEFacts.v
theories/PyFloatFacts.v
theories/FloorDivFacts.v
theories/TimeFacts.v
theories/WrMds.v
theories/RdMdsAgree.v
theories/WrMdsFacts.v
theories/WrTimesFacts.v
theories/PropWrMds.v
theories/ArgParse.v
theories/Counts.v
theories/CountsFacts.v
theories/CountsRun.v
theories/Main.v
theories/SpecArgs.v
theories/ArgFacts.v
theories/ArgLines.v
theories/ArgNumbers.v
theories/PropArgs.v
theories/SpecSeries.v
theories/SeriesNames.v
theories/SeriesFrame.v
theories/SeriesFacts.v
theories/PropSeries.v
theories/SpecMeta.v
theories/MetaFacts.v
theories/SpecNumber.v
theories/NumberFacts.v
theories/PropMeta.v
theories/PiBounds.v
theories/RoundFacts.v
theories/RoundCart.v
theories/RoundGrid.v
theories/SphereFlat.v
theories/PropRounding.v
theories/PropGlob.v
theories/PropParent.v
theories/AgreeFacts.v
theories/PropAgree.v
theories/PropRecords.v
theories/PropObcsOut.v
theories/RdMdsAs.v
theories/AsFacts.v
theories/PropAs.v
theories/PropCounts.v
theories/FmtF.v
theories/FmtFFacts.v
theories/Verbose.v
theories/VerboseObcs.v
theories/MainV.v
theories/VerboseFacts.v
theories/VerboseSays.v
theories/PropVerbose.v
theories/VerboseObcsFacts.v
theories/PropVerboseMore.v
theories/PropVerboseObcs.v
theories/PropWorkflow.v
theories/MdsSays.v
theories/PropMdsSays.v
theories/PropRestitch.v
theories/PropLengths.v
theories/PropSnap.v
theories/LoadTxt.v
theories/PropCsv.v
theories/PropGlobe.v
theories/PropPadded.v
theories/PropVelocity.v
theories/PropRun.v
theories/PropTurned.v
theories/PropSlice.v
theories/ObcsDicts.v
theories/PropDicts.v
theories/Axioms.v
