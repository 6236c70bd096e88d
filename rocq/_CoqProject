-Q theories Verif

theories/Base.v
theories/BaseLemmas.v
theories/ListLemmas.v
theories/BitLemmas.v
theories/Affine.v
theories/AffineProofs.v
theories/Orient.v
theories/OrientSpec.v
theories/OrientProofs.v
theories/AffineProofs2.v
theories/AffineProps.v
theories/OrientProps.v
theories/Limits.v
theories/LimitsProofs.v
theories/LimitsProps.v
theories/Delay.v
theories/DelayProofs.v
theories/DelayProps.v
theories/Formats.v
theories/FormatsProofs.v
theories/FormatsProps.v
theories/Overlay.v
theories/OverlayProofs.v
theories/OverlayProps.v
theories/GenImage.v
theories/GenImageProofs.v
theories/GenImageProps.v
theories/Buffer.v
theories/BufferProofs.v
theories/BufferProps.v
theories/Color.v
theories/ColorProofs.v
theories/ColorProps.v
theories/Flat.v
theories/FlatSpec.v
theories/FlatProofs.v
theories/FlatProps.v
theories/ListMore.v
theories/Text.v
theories/Hdr.v
theories/HdrProofs.v
theories/HdrProofs2.v
theories/HdrProofs3.v
theories/HdrProps.v
theories/ColorType.v
theories/ColorTypeProps.v
theories/Tga.v
theories/TgaSpec.v
theories/TgaProofs.v
theories/TgaProofs2.v
theories/TgaProofs3.v
theories/TgaProofs4.v
theories/TgaProps.v
theories/Bits.v
theories/BitsProofs.v
theories/BitsProps.v
theories/LoadRect.v
theories/LoadRectSpec.v
theories/LoadRectProofs.v
theories/LoadRectProps.v
theories/Farbfeld.v
theories/FarbfeldSpec.v
theories/FarbfeldProofs.v
theories/FarbfeldProps.v
theories/Reader.v
theories/ReaderProofs.v
theories/ReaderProps.v
theories/Post.v
theories/Dxt.v
theories/DxtSpec.v
theories/DxtProofs.v
theories/DxtProofs2.v
theories/DxtProps.v
theories/Ico.v
theories/IcoSpec.v
theories/IcoProofs.v
theories/IcoProps.v
theories/Png.v
theories/PngSpec.v
theories/PngProofs.v
theories/PngProps.v
theories/Gif.v
theories/GifSpec.v
theories/GifProofs.v
theories/GifProps.v
theories/BmpBits.v
theories/BmpBitsProps.v
theories/Bmp.v
theories/BmpProofs.v
theories/BmpSpec.v
theories/BmpProofs2.v
theories/BmpProofs3.v
theories/BmpProofs4.v
theories/BmpProofs5.v
theories/BmpProofs6.v
theories/BmpProps.v
theories/BmpAcceptProps.v
theories/BmpProofs7.v
theories/BmpEncProps.v
theories/Float.v
theories/FloatProofs.v
theories/ColorF.v
theories/ColorFProofs.v
theories/ColorFProps.v
theories/Resize.v
theories/ResizeProofs.v
theories/ResizeProps.v
theories/Thumb.v
theories/ThumbSpec.v
theories/ThumbProofs.v
theories/ThumbProofs2.v
theories/ThumbProofs3.v
theories/ThumbProofs4.v
theories/ThumbProofs5.v
theories/ThumbProps.v
theories/Dither.v
theories/DitherSpec.v
theories/DitherProofs.v
theories/DitherProps.v
theories/Sample.v
theories/SampleProofs.v
theories/SampleProofs2.v
theories/SampleProofs3.v
theories/SampleSpec.v
theories/SampleProofs4.v
theories/SampleProofs5.v
theories/SampleProofs6.v
theories/SampleProofs7.v
theories/SampleProofs8.v
theories/SampleProofs9.v
theories/SampleProofs10.v
theories/SampleProps.v
theories/CubicSpec.v
theories/CubicProofs.v
theories/CubicProofs2.v
theories/CubicProofs3.v
theories/CubicProofs4.v
theories/CubicProofs5.v
theories/CubicProofs6.v
theories/CubicProps.v
theories/BlurSpec.v
theories/BlurProofs.v
theories/BlurProofs2.v
theories/BlurProps.v
theories/Interp.v
theories/InterpSpec.v
theories/InterpProofs.v
theories/InterpProps.v
theories/Filter3.v
theories/Filter3Spec.v
theories/Filter3Proofs.v
theories/Filter3Props.v
theories/FastBlur.v
theories/FastBlurSpec.v
theories/FastBlurProofs.v
theories/FastBlurProofs2.v
theories/FastBlurProofs3.v
theories/FastBlurProofs4.v
theories/FastBlurProps.v
theories/Rgbe.v
theories/RgbeSpec.v
theories/RgbeProofs.v
theories/RgbeProofs2.v
theories/RgbeProofs3.v
theories/RgbeProps.v
theories/Yuv.v
theories/YuvSpec.v
theories/YuvProofs.v
theories/YuvProofs2.v
theories/YuvProofs3.v
theories/YuvProofs4.v
theories/YuvProofs5.v
theories/YuvProps.v
theories/Tiff.v
theories/TiffProofs.v
theories/TiffProps.v
theories/Gradient.v
theories/GradientProofs.v
theories/GradientProps.v
theories/Dyn.v
theories/DynSpec.v
theories/DynProofs.v
theories/DynProofs2.v
theories/DynProofs3.v
theories/DynProps.v
theories/Par.v
theories/ParProofs.v
theories/ParProps.v
theories/Glue.v
theories/GlueProofs.v
theories/GlueProps.v
theories/GlueProps2.v
theories/Save.v
theories/SaveSpec.v
theories/SaveProofs.v
theories/SaveProps.v
theories/Boxed.v
theories/BoxedProps.v
theories/GifEnc.v
theories/GifEncSpec.v
theories/GifEncProofs.v
theories/GifEncProps.v
theories/Hue.v
theories/HueSpec.v
theories/HueProofs.v
theories/HueProps.v
theories/Exr.v
theories/ExrProofs.v
theories/ExrProps.v
theories/Pnm.v
theories/PnmScale.v
theories/PnmSpec.v
theories/PnmProofs.v
theories/PnmProofs2.v
theories/PnmProofs3.v
theories/PnmProofs4.v
theories/PnmProps.v
theories/Jpeg.v
theories/JpegSpec.v
theories/JpegProofs.v
theories/JpegProofs2.v
theories/JpegDct.v
theories/JpegQuant.v
theories/JpegScan.v
theories/JpegFile.v
theories/JpegProps.v
