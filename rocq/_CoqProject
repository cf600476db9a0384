-Q theories Verif
theories/Base.v
theories/BaseProof.v
theories/StreamModel.v
theories/StreamSpec.v
theories/StreamProof.v
theories/StreamProps.v
theories/Bits.v
theories/QoiModel.v
theories/QoiProof.v
theories/QoiProof2.v
theories/QoiProps.v
theories/Loops.v
theories/PngFilterModel.v
theories/PngFilterSpec.v
theories/PngFilterProof.v
theories/CrcTables.v
theories/CrcModel.v
theories/CrcSpec.v
theories/CrcProof.v
theories/PngFilterProps.v
theories/BitReaderModel.v
theories/BitReaderSpec.v
theories/BitReaderProof.v
theories/Slices.v
theories/InflateModel.v
theories/InflateSpec.v
theories/MatchProof.v
theories/StoredProof.v
theories/InflateProps.v
theories/HuffModel.v
theories/HuffSpec.v
theories/HuffCode.v
theories/HuffSortProof.v
theories/HuffTableProof.v
theories/HuffBuildProof.v
theories/HuffEntryProof.v
theories/HuffLoopProof.v
theories/HuffHeaderProof.v
theories/HuffStreamProof.v
theories/HuffRef.v
theories/HuffBuildsProof.v
theories/HuffRejectProof.v
theories/HuffProps.v
theories/GzipModel.v
theories/GzipSpec.v
theories/GzipProps.v
theories/DecText.v
theories/HdrModel.v
theories/HdrSpec.v
theories/HdrProof.v
theories/HdrProps.v
theories/HdrFloatModel.v
theories/HdrFloatProps.v
theories/ImageIoModel.v
theories/ImageIoProof.v
theories/ImageIoPng.v
theories/ImageIoProps.v
theories/ResizeModel.v
theories/ResizeSpec.v
theories/ResizeProof.v
theories/ResizeProps.v
theories/JxlModel.v
theories/JxlSpec.v
theories/JxlProof.v
theories/JxlFileProof.v
theories/JxlProps.v
theories/PpmModel.v
theories/PpmProof.v
theories/PpmProps.v
theories/BmpModel.v
theories/BmpSpec.v
theories/BmpProof.v
theories/BmpProps.v
theories/GeomModel.v
theories/GeomSpec.v
theories/GeomProof.v
theories/GeomProps.v
theories/ProcModel.v
theories/ProcSpec.v
theories/ProcProof.v
theories/ProcProps.v
theories/MedianModel.v
theories/MedianSpec.v
theories/MedianProof.v
theories/MedianProps.v
theories/BlurModel.v
theories/BlurSpec.v
theories/BlurProof.v
theories/BlurProps.v
theories/GaussModel.v
theories/GaussSpec.v
theories/GaussProof.v
theories/GaussProps.v
theories/BilateralModel.v
theories/BilateralSpec.v
theories/BilateralProps.v
theories/GifModel.v
theories/GifSpec.v
theories/GifProps.v
theories/ThreadModel.v
theories/ThreadSpec.v
theories/ThreadProof.v
theories/ThreadProps.v
theories/ChannelModel.v
theories/ChannelSpec.v
theories/ChannelProof.v
theories/ChannelProps.v
theories/DeintModel.v
theories/DeintSpec.v
theories/DeintProof.v
theories/DeintProps.v
theories/F32.v
theories/DepthModel.v
theories/DepthSpec.v
theories/DepthProof.v
theories/DepthProps.v
theories/ColorModel.v
theories/ColorSpec.v
theories/ColorProof.v
theories/CmykProof.v
theories/ColorProps.v
theories/PngRowModel.v
theories/PngModel.v
theories/PngSpec.v
theories/PngRowProof.v
theories/PngLoopProof.v
theories/PngInterProof.v
theories/PngFileSpec.v
theories/PngChunkProof.v
theories/PngNoteProof.v
theories/PngFileProof.v
theories/PngDecodeProof.v
theories/PngHeaderProof.v
theories/PngEncodeProof.v
theories/PngProps.v
theories/PngHuffProps.v
theories/JpegSimd.v
theories/JpegIdctModel.v
theories/JpegIdctSpec.v
theories/JpegIdctProof.v
theories/JpegIdctProps.v
theories/JpegColorModel.v
theories/JpegColorSpec.v
theories/JpegColorProof.v
theories/JpegColorProps.v
theories/JpegUpsampleModel.v
theories/JpegUpsampleSpec.v
theories/JpegUpsampleProof.v
theories/JpegUpsampleRows.v
theories/JpegUpsampleImage.v
theories/JpegUpsampleProps.v
theories/JpegHuffModel.v
theories/JpegHuffSpec.v
theories/JpegHuffTable.v
theories/JpegHuffBits.v
theories/JpegHuffBlock.v
theories/JpegHuffRun.v
theories/JpegHuffProps.v
theories/JpegScanModel.v
theories/JpegScanSpec.v
theories/JpegScanProof.v
theories/JpegAny.v
theories/JpegScanProps.v
theories/JpegPictureProps.v
theories/JpegProgModel.v
theories/JpegProgSpec.v
theories/JpegProgBits.v
theories/JpegProgBlock.v
theories/JpegProgScan.v
theories/JpegProgFile.v
theories/JpegProgPicture.v
theories/JpegHeadModel.v
theories/JpegHeadSpec.v
theories/JpegHeadProof.v
theories/JpegHeadProps.v
theories/JpegFileModel.v
theories/JpegFileSpec.v
theories/JpegFileProof.v
theories/JpegFilePixels.v
theories/JpegFileDemo.v
theories/JpegFileProps.v
theories/PsdModel.v
theories/PsdSpec.v
theories/PsdProof.v
theories/PsdProps.v
theories/F32Round.v
theories/SpatialModel.v
theories/SpatialSpec.v
theories/SpatialProof.v
theories/SpatialProps.v
theories/ToneModel.v
theories/ToneSpec.v
theories/ToneProof.v
theories/ToneProof2.v
theories/ToneProof3.v
theories/ToneProps.v
theories/BmpFileModel.v
theories/BmpFileSpec.v
theories/BmpFileProof.v
theories/BmpFileSafe.v
theories/BmpFileProps.v
theories/ApngModel.v
theories/ApngSpec.v
theories/ApngProof.v
theories/ApngOver.v
theories/ApngProps.v
theories/ApngFileModel.v
theories/ApngFileSpec.v
theories/ApngFileProof.v
theories/ApngFrameProof.v
theories/ApngPlayProof.v
theories/ApngFileProps.v
theories/OrientModel.v
theories/OrientSpec.v
theories/OrientProof.v
theories/OrientProps.v
theories/PipelineProps.v
theories/AffineModel.v
theories/AffineSpec.v
theories/AffineProof.v
theories/AffineProps.v
theories/AffineSafeProps.v
theories/SepModel.v
theories/SepProof.v
theories/SepProps.v
theories/SepValueProps.v
theories/SepPictureProps.v
