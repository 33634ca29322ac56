-Q theories Verif
theories/Outcome.v
theories/SortedContainer.v
theories/SortedContainerSpec.v
theories/SortedContainerProofs.v
theories/PropertiesBuffer.v
theories/Core.v
theories/CoreExamples.v
theories/CoreBasics.v
theories/CoreInv.v
theories/CoreSteps.v
theories/CoreSafety.v
theories/CoreQueue.v
theories/CoreReset.v
theories/AccNorm.v
theories/AccNormProofs.v
theories/PropertiesCore.v
theories/Geom.v
theories/StateList.v
theories/StateListProofs.v
theories/Propagate.v
theories/GeomProofs.v
theories/NavOps.v
theories/PropertiesState.v
theories/Ordering.v
theories/PropertiesOrdering.v
theories/PropertiesGeometry.v
theories/PCore.v
theories/PCoreCert.v
theories/CovSpec.v
theories/Cov.v
theories/CovProofs.v
theories/RField.v
theories/PropertiesCov.v
theories/Handlers.v
theories/HandlersSpec.v
theories/HandlersProofs.v
theories/PropertiesHandlers.v
theories/Fuzzy.v
theories/FuzzyProofs.v
theories/PropertiesFuzzy.v
theories/Gps.v
theories/GpsProofs.v
theories/PropertiesGps.v
theories/Messages.v
theories/PropertiesMessages.v
theories/CovMsg.v
theories/PropertiesCovMsg.v
theories/Sensors.v
theories/SensorsSpec.v
theories/SensorsProofs.v
theories/PropertiesSensors.v
theories/SensorsCov.v
theories/PropertiesFixed.v
theories/BatchSpec.v
theories/Batch.v
theories/BatchCor.v
theories/PropertiesBatch.v
theories/QCore.v
theories/ProcNoise.v
theories/Predict.v
theories/ProcNoiseProofs.v
theories/QdProofs.v
theories/PredictProofs.v
theories/PropertiesPredict.v
theories/TransitionSpec.v
theories/TransitionProofs.v
theories/UnitsProofs.v
theories/PropertiesTransition.v
theories/Filter.v
theories/FilterState.v
theories/FilterProofs.v
theories/DemoRun.v
theories/PropertiesFilter.v
theories/NoiseSpec.v
theories/NoiseProofs.v
theories/NoiseOrder.v
theories/PropertiesNoise.v
theories/Readings.v
theories/ReadingsProofs.v
theories/PropertiesReadings.v
theories/ArrayMsg.v
theories/PropertiesArrays.v
theories/Similarity.v
theories/SimilaritySpec.v
theories/SimilarityProofs.v
theories/PropertiesSimilarity.v
theories/Timers.v
theories/TimersSpec.v
theories/TimersProofs.v
theories/PropertiesTimers.v
theories/Distort.v
theories/DistortSpec.v
theories/DistortProofs.v
theories/PropertiesDistort.v
theories/Stamps.v
theories/StampsProofs.v
theories/PropertiesStamps.v
theories/Previous.v
theories/PreviousProofs.v
theories/PropertiesPrevious.v
theories/Relative.v
theories/RelativeProofs.v
theories/PropertiesRelative.v
theories/Node.v
theories/NodeProofs.v
theories/PropertiesNode.v
theories/Eval.v
theories/EvalProofs.v
theories/PropertiesEval.v
theories/Reconfigure.v
theories/PropertiesReconfigure.v
theories/Compass.v
theories/CompassProofs.v
theories/PropertiesCompass.v
theories/PropertiesRejected.v
theories/FlightNoise.v
theories/FlightProofs.v
theories/PropertiesFlight.v
theories/Palette.v
theories/PaletteProofs.v
theories/PropertiesPalette.v
theories/Relay.v
theories/PropertiesRelay.v
theories/CoreForget.v
theories/PropertiesForget.v
theories/EvalPlot.v
theories/EvalPlotProofs.v
theories/PropertiesEvalPlot.v
theories/EigenUtils.v
theories/PropertiesEigenUtils.v
theories/TypeTraits.v
theories/PropertiesTypeTraits.v
theories/Logging.v
theories/PropertiesLogging.v
theories/CoreConfig.v
theories/PropertiesCoreConfig.v
theories/RestProofs.v
theories/PropertiesRest.v
theories/ConfigFiles.v
theories/PropertiesConfigFiles.v
