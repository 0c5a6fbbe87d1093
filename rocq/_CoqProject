-Q theories Verif
theories/Base/Prelude.v
theories/Base/Num.v
theories/Base/Frame.v
theories/Base/Strings.v
theories/Base/Sort.v
theories/Spec/Filters.v
theories/Model/Filters.v
theories/Spec/Linking.v
theories/Model/Linking.v
theories/Proofs/Linking.v
theories/Proofs/Discovery.v
theories/Proofs/LinkObject.v
theories/Proofs/LinkFilter.v
theories/Proofs/LinkProps.v
theories/Properties/Linking.v
theories/Proofs/Filters.v
theories/Properties/Filters.v
theories/Model/Csv.v
theories/Spec/Readers.v
theories/Model/Readers.v
theories/Proofs/Csv.v
theories/Proofs/Identifiers.v
theories/Proofs/Readers.v
theories/Proofs/Combined.v
theories/Model/OrbitAux.v
theories/Spec/OrbitAux.v
theories/Proofs/OrbitAux.v
theories/Proofs/ReadersFindings.v
theories/Properties/Readers.v
theories/Model/Driver.v
theories/Model/Pipeline.v
theories/Spec/Driver.v
theories/Spec/Pipeline.v
theories/Proofs/Driver.v
theories/Proofs/Pipeline.v
theories/Proofs/Chunking.v
theories/Properties/Driver.v
theories/Model/Output.v
theories/Model/Files.v
theories/Spec/Output.v
theories/Spec/Files.v
theories/Proofs/Output.v
theories/Proofs/Files.v
theories/Properties/Files.v
theories/Model/Sphere.v
theories/Spec/Sphere.v
theories/Proofs/Sphere.v
theories/Proofs/Sky.v
theories/Model/Randomize.v
theories/Spec/Randomize.v
theories/Proofs/Randomize.v
theories/Properties/Sphere.v
theories/Model/Photometry.v
theories/Model/Colours.v
theories/Spec/Colours.v
theories/Proofs/Photometry.v
theories/Proofs/Magnitudes.v
theories/Proofs/Colours.v
theories/Proofs/Culling.v
theories/Properties/Photometry.v
theories/Model/Ephemeris.v
theories/Model/EphemerisTable.v
theories/Spec/Ephemeris.v
theories/Proofs/Ephemeris.v
theories/Proofs/EphemerisRows.v
theories/Proofs/EphemerisTable.v
theories/Properties/Ephemeris.v
theories/Model/Footprint.v
theories/Model/VisitsFootprint.v
theories/Spec/Footprint.v
theories/Proofs/Footprint.v
theories/Proofs/FootprintSort.v
theories/Proofs/FootprintFile.v
theories/Spec/Log.v
theories/Proofs/Log.v
theories/Proofs/FootprintRows.v
theories/Proofs/VisitsFootprint.v
theories/Properties/Footprint.v
theories/Properties/VisitsFootprint.v
theories/Model/Kepler.v
theories/Spec/Kepler.v
theories/Proofs/Kepler.v
theories/Proofs/Halley.v
theories/Proofs/HalleyFindings.v
theories/Proofs/KeplerState.v
theories/Model/OrbitParse.v
theories/Spec/OrbitParse.v
theories/Proofs/OrbitParse.v
theories/Proofs/Perihelion.v
theories/Properties/Kepler.v
theories/Model/Config.v
theories/Spec/Config.v
theories/Proofs/Config.v
theories/Proofs/ConfigFindings.v
theories/Properties/Config.v
theories/Model/Pointing.v
theories/Spec/Pointing.v
theories/Proofs/Pointing.v
theories/Model/DES.v
theories/Spec/DES.v
theories/Proofs/DES.v
theories/Properties/Pointing.v
theories/Spec/ConfigValues.v
theories/Proofs/ConfigValues.v
theories/Proofs/ConfigOrder.v
theories/Model/DESPipeline.v
theories/Spec/DESPipeline.v
theories/Proofs/DESPipeline.v
theories/Proofs/PipelineTimes.v
theories/Properties/DESRun.v
theories/Model/Shipped.v
theories/Spec/Shipped.v
theories/Proofs/Shipped.v
theories/Model/Columns.v
theories/Model/Log.v
theories/Spec/Columns.v
theories/Proofs/Columns.v
theories/Proofs/ColumnsRun.v
theories/Properties/Columns.v
theories/Model/Startup.v
theories/Spec/Startup.v
theories/Proofs/Startup.v
theories/Proofs/StartupRun.v
theories/Proofs/StartupRefused.v
theories/Properties/Startup.v
theories/Model/SavedEphemeris.v
theories/Spec/SavedEphemeris.v
theories/Proofs/SavedEphemeris.v
theories/Proofs/SavedEphemerisRun.v
theories/Properties/Saved.v
theories/Properties/Log.v
theories/Model/Setup.v
theories/Spec/Setup.v
theories/Proofs/Setup.v
theories/Properties/Setup.v
theories/Model/Cache.v
theories/Spec/Cache.v
theories/Proofs/Cache.v
theories/Proofs/CacheRun.v
theories/Proofs/CacheBootstrap.v
theories/Properties/Cache.v
theories/Model/FrontEnds.v
theories/Spec/FrontEnds.v
theories/Proofs/FrontEnds.v
theories/Properties/FrontEnds.v
theories/Spec/Bricks.v
theories/Proofs/Bricks.v
theories/Properties/Bricks.v
theories/Spec/Anomaly.v
theories/Proofs/Stumpff.v
theories/Proofs/Anomaly.v
theories/Properties/Anomaly.v
theories/Proofs/LightTime.v
theories/Proofs/Cometary.v
theories/Proofs/EllipseState.v
theories/Properties/Cometary.v
theories/Proofs/HyperbolicStumpff.v
theories/Proofs/HyperbolaState.v
theories/Proofs/ParabolaState.v
theories/Properties/Hyperbola.v
theories/Model/Hdf5Output.v
theories/Proofs/Hdf5Output.v
theories/Properties/Hdf5Output.v
theories/Model/Dispatch.v
theories/Spec/Dispatch.v
theories/Proofs/Dispatch.v
theories/Properties/Dispatch.v
theories/Model/Registration.v
theories/Spec/Registration.v
theories/Proofs/Registration.v
theories/Properties/Registration.v
theories/Model/ResultsDatabase.v
theories/Spec/ResultsDatabase.v
theories/Proofs/ResultsDatabase.v
theories/Properties/ResultsDatabase.v
theories/Spec/Motion.v
theories/Proofs/Motion.v
theories/Spec/LinkingFloat.v
theories/Model/LinkingFloat.v
theories/Proofs/LinkingFloat.v
theories/Properties/LinkingFloat.v
theories/Proofs/EnergyBound.v
theories/Properties/EnergyBound.v
theories/Model/Rounding.v
theories/Spec/Rounding.v
theories/Proofs/Rounding.v
theories/Properties/Rounding.v
theories/Model/Library.v
theories/Spec/Library.v
theories/Proofs/Library.v
theories/Properties/Library.v
theories/Model/Arguments.v
theories/Spec/Arguments.v
theories/Proofs/Arguments.v
theories/Properties/Arguments.v
theories/Model/FadingFloat.v
theories/Spec/FadingFloat.v
theories/Proofs/FadingFloat.v
theories/Properties/FadingFloat.v
theories/Proofs/Geometry.v
theories/Properties/Geometry.v
theories/Spec/Streams.v
theories/Proofs/Streams.v
theories/Properties/Streams.v
theories/Model/AngleFloat.v
theories/Spec/AngleFloat.v
theories/Proofs/AngleFloat.v
theories/Properties/AngleFloat.v
theories/Model/UncertaintyFloat.v
theories/Spec/UncertaintyFloat.v
theories/Proofs/UncertaintyFloat.v
theories/Properties/UncertaintyFloat.v
theories/Spec/UncertaintyClose.v
theories/Proofs/UncertaintyClose.v
theories/Properties/UncertaintyClose.v
theories/Proofs/Scatter.v
theories/Properties/Scatter.v
theories/Spec/Complete.v
theories/Proofs/Complete.v
theories/Properties/Complete.v
theories/Model/MagnitudeFloat.v
theories/Spec/MagnitudeFloat.v
theories/Proofs/MagnitudeFloat.v
theories/Properties/MagnitudeFloat.v
theories/Spec/Catalogue.v
theories/Proofs/Catalogue.v
theories/Properties/Catalogue.v
theories/Model/SeparationFloat.v
theories/Spec/SeparationFloat.v
theories/Proofs/SeparationFloat.v
theories/Properties/SeparationFloat.v
theories/Model/FootprintFloat.v
theories/Spec/FootprintFloat.v
theories/Proofs/FootprintFloat.v
theories/Proofs/DetectorFloat.v
theories/Properties/FootprintFloat.v
theories/Proofs/CornersFloat.v
theories/Proofs/CameraFloat.v
theories/Model/Cameras.v
theories/Spec/Cameras.v
theories/Proofs/Cameras.v
theories/Properties/Cameras.v
theories/Model/Demo.v
theories/Proofs/Demo.v
theories/Properties/Demo.v
theories/Model/WholeRun.v
theories/Proofs/WholeRun.v
theories/Properties/WholeRun.v
theories/Spec/DESCatalogue.v
theories/Proofs/DESWhole.v
theories/Properties/DESWhole.v
theories/Proofs/RoundTrip.v
theories/Properties/RoundTrip.v
