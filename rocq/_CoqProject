-Q theories Verif
theories/Base.v
theories/BaseFacts.v
theories/BlockModel.v
theories/PoolModel.v
theories/StemModel.v
theories/StemSpec.v
theories/PoolFacts.v
theories/StemProofs.v
theories/StemProps.v
theories/SparseStemProofs.v
theories/SparseStemProps.v
theories/ElectronModel.v
theories/ElectronSpec.v
theories/ElectronProofs.v
theories/ElectronProps.v
theories/CountModel.v
theories/PermFacts.v
theories/CountSpec.v
theories/CountProofs.v
theories/CountLive.v
theories/CountProps.v
theories/Double.v
theories/RadialModel.v
theories/RadialSpec.v
theories/RadialProofs.v
theories/RadialProps.v
theories/RadialFloat.v
theories/ImageModel.v
theories/ImageSpec.v
theories/ImageProofs.v
theories/ImageProps.v
theories/HistSpec.v
theories/HistProofs.v
theories/HistProps.v
theories/StreamModel.v
theories/StreamSpec.v
theories/StreamProofs.v
theories/StreamProps.v
theories/SectorModel.v
theories/SectorSpec.v
theories/SectorProofs.v
theories/SectorProps.v
theories/Float32.v
theories/CapturedModel.v
theories/CapturedProps.v
theories/H5Model.v
theories/H5Props.v
theories/ThreadedModel.v
theories/ThreadedSpec.v
theories/ThreadedProofs.v
theories/ThreadedLive.v
theories/ThreadedProps.v
theories/MultipassModel.v
theories/MultipassSpec.v
theories/MultipassProofs.v
theories/MultipassFrames.v
theories/MultipassReader.v
theories/MultipassProps.v
theories/PyModel.v
theories/PySpec.v
theories/PyProofs.v
theories/PyProps.v
theories/MpiModel.v
theories/MpiSpec.v
theories/MpiCodec.v
theories/MpiProofs.v
theories/MpiWorld.v
theories/MpiGather.v
theories/MpiEvents.v
theories/MpiProps.v
theories/SparseModel.v
theories/SparseSpec.v
theories/SparseProofs.v
theories/SparseSlice.v
theories/SparseReduce.v
theories/SparseMeanModel.v
theories/SparseMean.v
theories/SparseBin.v
theories/SparseProps.v
theories/SparseFileModel.v
theories/SparseFileSpec.v
theories/SparseFileProofs.v
theories/SparseFileProps.v
theories/FloatConv.v
theories/ComModel.v
theories/ComSpec.v
theories/ComProofs.v
theories/ComProps.v
theories/HelperModel.v
theories/HelperSpec.v
theories/HelperProofs.v
theories/FilterProofs.v
theories/HelperProps.v
theories/CountedModel.v
theories/CountedSpec.v
theories/CountedProps.v
theories/JointModel.v
theories/JointSpec.v
theories/JointProofs.v
theories/JointMulti.v
theories/JointProps.v
theories/ReadFramesModel.v
theories/ReadFramesSpec.v
theories/ReadFramesProofs.v
theories/ReadFramesProps.v
theories/ThresholdModel.v
theories/ThresholdSpec.v
theories/ThresholdStats.v
theories/ThresholdProofs.v
theories/ThresholdProps.v
theories/StemPyModel.v
theories/StemPySpec.v
theories/StemPyProofs.v
theories/StemPyProps.v
theories/IeeeModel.v
theories/ClassicPyModel.v
theories/ClassicPySpec.v
theories/ClassicPyProofs.v
theories/ClassicPyProps.v
theories/ScanPathModel.v
theories/ScanPathSpec.v
theories/ScanPathProofs.v
theories/ScanPathProps.v
theories/ReaderImageModel.v
theories/ReaderImageSpec.v
theories/ReaderImageProofs.v
theories/ReaderImageProps.v
theories/DarkRefSpec.v
theories/DarkRefProofs.v
theories/DarkRefProps.v
theories/PhaseModel.v
theories/PhaseSpec.v
theories/PhaseProofs.v
theories/PhaseProps.v
theories/GaussFitModel.v
theories/GaussFitSpec.v
theories/GaussFitProps.v
theories/H5LibModel.v
theories/H5WrapModel.v
theories/H5WrapSpec.v
theories/H5WrapProofs.v
theories/H5WrapProps.v
theories/H5DataSpec.v
theories/H5DataProofs.v
theories/H5Region.v
theories/H5RegionProofs.v
theories/H5AttrProofs.v
theories/H5CreateProofs.v
theories/H5TextProofs.v
theories/H5DataProps.v
theories/ExportModel.v
theories/ExportSpec.v
theories/ExportProofs.v
theories/ExportProps.v
theories/NameModel.v
theories/NameSpec.v
theories/NameProps.v
theories/LoopModel.v
theories/LoopSpec.v
theories/LoopProps.v
theories/PipeModel.v
theories/PipeSpec.v
theories/PipeProofs.v
theories/PipeProps.v
theories/SaveModel.v
theories/SaveSpec.v
theories/SaveProps.v
theories/AxisModel.v
theories/AxisSpec.v
theories/AxisProps.v
theories/FullCountModel.v
theories/FullCountSpec.v
theories/FullCountProofs.v
theories/FullCountProps.v
theories/MeanModel.v
theories/MeanSpec.v
theories/MeanProps.v
theories/CallsModel.v
theories/CallsSpec.v
theories/CallsProps.v
theories/CallsPlain.v
theories/SessionModel.v
theories/SessionSpec.v
theories/SessionProps.v
theories/ConserveSpec.v
theories/ConserveProps.v
