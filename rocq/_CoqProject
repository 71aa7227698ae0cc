-Q theories Verif
theories/Base.v
theories/BaseFacts.v
theories/Grid.v
theories/GridFacts.v
theories/DistSpec.v
theories/DistModel.v
theories/DistProofs.v
theories/DistThms.v
theories/DistReach.v
theories/DistShapes.v
theories/DistTrace.v
theories/DistChain.v
theories/DistPlane.v
theories/DistPlanar.v
theories/TopoSpec.v
theories/CCModel.v
theories/CCProofs.v
theories/Floats.v
theories/FloatFacts.v
theories/FloatFacts2.v
theories/CollisionMap.v
theories/ComponentSpec.v
theories/CollisionMapProofs.v
theories/SdfGen.v
theories/SdfSpec.v
theories/SdfGenProofs.v
theories/SdfThms.v
theories/SdfBorderThms.v
theories/SdfExact.v
theories/SdfShapes.v
theories/Arith.v
theories/SdfQuery.v
theories/QuerySpec.v
theories/QueryProofs.v
theories/QueryReal.v
theories/QueryThms.v
theories/QueryTurn.v
theories/SdfField.v
theories/QueryWitness.v
theories/SdfLock.v
theories/SdfLockThms.v
theories/Extrema.v
theories/ExtremaSpec.v
theories/ExtremaProofs.v
theories/ExtremaThms.v
theories/TaggedMap.v
theories/TaggedSpec.v
theories/NormSym.v
theories/TaggedProofs.v
theories/TaggedCase.v
theories/TaggedExact.v
theories/TaggedFresh.v
theories/Serial.v
theories/SerialSpec.v
theories/SerialProofs.v
theories/SerialThms.v
theories/Surfaces.v
theories/SurfaceSpec.v
theories/VertexProofs.v
theories/HoleProofs.v
theories/SurfaceProofs.v
theories/TopologyProofs.v
theories/TopologyThms.v
theories/SurfaceThms.v
theories/SurfaceAgree.v
theories/PlanarTopo.v
theories/EulerGraph.v
theories/EulerGrid.v
theories/PlanarRegion.v
theories/PlanarCorners.v
theories/PlanarSpec.v
theories/PlanarHoles.v
theories/PlanarMap.v
theories/Resample.v
theories/ResampleSpec.v
theories/ResampleProofs.v
theories/ResampleThms.v
theories/Display.v
theories/DisplaySpec.v
theories/DisplayProofs.v
theories/DisplayUnique.v
theories/DisplayContour.v
theories/DisplaySdf.v
theories/DisplayThms.v
theories/DisplayCase.v
theories/Builder.v
theories/BuilderSpec.v
theories/BuilderProofs.v
theories/BuilderCase.v
theories/Image.v
theories/ImageSpec.v
theories/ImageProofs.v
theories/ImagePath.v
theories/ImageThms.v
theories/ImageOut.v
theories/ImageCase.v
theories/Python.v
theories/PySpec.v
theories/PyProofs.v
theories/PyThms.v
theories/PyCase.v
theories/PyDist.v
theories/Hashed.v
theories/HashedSpec.v
theories/HashedProofs.v
theories/HashedThms.v
theories/AutoDiff.v
theories/AutoDiffSpec.v
theories/AutoDiffProofs.v
theories/AutoDiffThms.v
theories/EstimateSteps.v
theories/AutoDiffCase.v
theories/Node.v
theories/NodeSpec.v
theories/NodeProofs.v
theories/Location.v
theories/LocationSpec.v
theories/LocationThms.v
theories/DoubleSpec.v
theories/DoubleQuery.v
theories/DoubleCase.v
theories/DoubleEstimate.v
theories/DoubleGrid.v
theories/Markers.v
theories/MarkerSpec.v
theories/MarkerThms.v
theories/Demo.v
theories/DemoSpec.v
theories/DemoProofs.v
theories/DemoDraw.v
theories/DemoThms.v
theories/DemoArrow.v
theories/DemoCase.v
theories/WallSpec.v
theories/WallThms.v
theories/WallExtract.v
theories/ScaleSpec.v
theories/ScaleThms.v
theories/ScaleCase.v
theories/SmoothSpec.v
theories/DoubleSmooth.v
theories/WallDouble.v
theories/WallQuery.v
theories/FieldSpec.v
theories/LongRow.v
theories/DistOrder.v
theories/DistCompare.v
theories/SdfCompare.v
theories/EstimateSpec.v
theories/EstimateThms.v
theories/EstimateMap.v
theories/EstimateCase.v
theories/SlopeThms.v
theories/IdealSpec.v
theories/IdealThms.v
theories/IdealMap.v
theories/TaggedUnion.v
theories/OuterThms.v
theories/ProjectThms.v
theories/PyTest.v
theories/PyShapes.v
theories/WallProject.v
theories/Frame.v
theories/FrameSpec.v
theories/FrameThms.v
theories/FrameWall.v
theories/FrameCase.v
theories/FrameTurn.v
theories/FrameSlope.v
theories/PlaceSpec.v
theories/PlaceThms.v
theories/Origin.v
theories/OriginSpec.v
theories/OriginThms.v
theories/OriginTurn.v
theories/OriginQuat.v
theories/OriginPlace.v
theories/SdfInvert.v
theories/PointSpec.v
theories/PointThms.v
theories/PointCase.v
theories/ResampleDouble.v
theories/VolumeSpec.v
theories/VolumeThms.v
theories/WindowSpec.v
theories/WindowThms.v
theories/WindowPlace.v
theories/Blocks.v
theories/BlockSpec.v
theories/BlockThms.v
theories/DepthThms.v
theories/OutThms.v
theories/InsideSpec.v
theories/InsideThms.v
theories/SearchThms.v
theories/AgreeThms.v
theories/GridSpec.v
theories/GridThms.v
theories/PropGrid.v
theories/PropDist.v
theories/PropComponents.v
theories/PropSdf.v
theories/PropQuery.v
theories/PropLock.v
theories/PropExtrema.v
theories/PropTagged.v
theories/PropSerial.v
theories/PropSurface.v
theories/PropResample.v
theories/PropDisplay.v
theories/PropBuilder.v
theories/PropImage.v
theories/PropPython.v
theories/PropHashed.v
theories/PropAutoDiff.v
theories/PropNode.v
theories/PropLocation.v
theories/PropDouble.v
theories/PropMarkers.v
theories/PropPlanar.v
theories/PropDemo.v
theories/PropShapes.v
theories/PropWall.v
theories/PropSmooth.v
theories/PropField.v
theories/PropEstimate.v
theories/PropSlope.v
theories/PropIdeal.v
theories/PropUnion.v
theories/PropProject.v
theories/PropPyShapes.v
theories/PropWallProject.v
theories/PropFrame.v
theories/PropFrameTurn.v
theories/PropPlace.v
theories/PropOrigin.v
theories/PropPoint.v
theories/PropResampleDouble.v
theories/PropVolume.v
theories/PropWindow.v
theories/PropBlocks.v
theories/PropDepth.v
theories/PropOut.v
theories/PropInside.v
theories/PropSearch.v
theories/PropAgree.v
