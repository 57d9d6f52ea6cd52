-Q theories Verif
theories/Model/Base.v
theories/Model/Float.v
theories/Model/Image.v
theories/Proofs/BaseL.v
theories/Spec/ImageS.v
theories/Spec/FloatS.v
theories/Spec/ConvS.v
theories/Spec/HistS.v
theories/Spec/WheelS.v
theories/Proofs/ImageL.v
theories/Model/MathM.v
theories/Model/Util.v
theories/Model/Par.v
theories/Model/Transform.v
theories/Proofs/ImageOps.v
theories/Spec/ImageOpsS.v
theories/Proofs/ImageProps.v
theories/Props/ImageP.v
theories/Props/PixelP.v
theories/Proofs/Safe.v
theories/Proofs/TransformL.v
theories/Props/TransformP.v
theories/Proofs/FloatL.v
theories/Proofs/FloatL2.v
theories/Proofs/ApproxL.v
theories/Props/FloatP.v
theories/Spec/SumS.v
theories/Spec/MorphS.v
theories/Spec/RealFilterS.v
theories/Proofs/SumL.v
theories/Proofs/LoopL.v
theories/Props/UtilP.v
theories/Props/MatP.v
theories/Props/SpatialP.v
theories/Props/HistP.v
theories/Proofs/DyadL.v
theories/Props/ScaleP.v
theories/Spec/ResampleS.v
theories/Props/ResampleP.v
theories/Spec/BsplineS.v
theories/Spec/PowS.v
theories/Proofs/ResampleL.v
theories/Proofs/PowL.v
theories/Proofs/SrgbL.v
theories/Proofs/SrgbL2.v
theories/Proofs/SrgbL3.v
theories/Props/BicubicP.v
theories/Proofs/WriteL.v
theories/Props/RotateP.v
theories/Model/Morph.v
theories/Proofs/MorphL.v
theories/Props/MorphP.v
theories/Model/Simd.v
theories/Model/Convert.v
theories/Model/Colorspace.v
theories/Model/Tone.v
theories/Spec/ColorS.v
theories/Proofs/ToneL.v
theories/Proofs/SimdL.v
theories/Spec/HsvS.v
theories/Proofs/HsvL.v
theories/Props/HsvP.v
theories/Props/ToneP.v
theories/Props/SatP.v
theories/Props/ContrastP.v
theories/Props/GrayP.v
theories/Props/ConvP.v
theories/Props/SrgbP.v
theories/Props/Hsv32P.v
theories/Model/Filter.v
theories/Spec/FilterS.v
theories/Proofs/FilterL.v
theories/Props/FilterP.v
theories/Props/FilterP2.v
theories/Props/FilterP3.v
theories/Props/EdgeP.v
theories/Model/Median.v
theories/Spec/MedianS.v
theories/Proofs/MedianL.v
theories/Proofs/MedianL2.v
theories/Proofs/MedianL3.v
theories/Props/MedianP.v
theories/Model/Trimmed.v
theories/Spec/TrimmedS.v
theories/Spec/TrimmedRowsS.v
theories/Proofs/MeanL.v
theories/Proofs/TrimmedL.v
theories/Proofs/TrimmedL2.v
theories/Proofs/TrimmedL3.v
theories/Proofs/TrimmedL4.v
theories/Proofs/TrimmedL5.v
theories/Proofs/TrimmedL6.v
theories/Proofs/TrimmedL7.v
theories/Proofs/TrimmedL8.v
theories/Props/TrimmedP.v
theories/Model/Bilateral.v
theories/Spec/BilateralS.v
theories/Proofs/BilateralL.v
theories/Props/BilateralP.v
theories/Model/Io.v
theories/Props/IoP.v
theories/Props/MorphLawP.v
theories/Props/ToneLawP.v
theories/Props/GeomLawP.v
theories/Props/FilterP4.v
theories/Spec/GaussS.v
theories/Proofs/ExpPiL.v
theories/Proofs/GaussL.v
theories/Props/GaussP.v
theories/Spec/RotateS.v
theories/Proofs/RotL.v
theories/Proofs/RotL2.v
theories/Props/RotateP2.v
theories/Spec/BilinearS.v
theories/Props/BilinearP.v
theories/Props/NearestP.v
theories/Spec/ShearS.v
theories/Props/ShearP.v
theories/Props/EdgeLawP.v
theories/Spec/SincS.v
theories/Proofs/SincL.v
theories/Props/LanczosP.v
theories/Spec/LabS.v
theories/Spec/BilatRealS.v
theories/Proofs/WmeanL.v
theories/Proofs/BilatL.v
theories/Proofs/LabL.v
theories/Props/BilatP.v
theories/Props/LabP.v
theories/Props/BilatP2.v
theories/Props/ThreshLawP.v
theories/Spec/LabInvS.v
theories/Proofs/LabInvL.v
theories/Props/LabInvP.v
theories/Spec/HistEqS.v
theories/Props/HistEqP.v
theories/Props/GeomToneP.v
theories/Props/MorphSymP.v
theories/Props/SimdSafeP.v
theories/Model/Display.v
theories/Spec/DisplayS.v
theories/Props/DisplayP.v
theories/Spec/FilterLawS.v
theories/Props/FilterLawP.v
theories/Props/SatLawP.v
theories/Model/Equal.v
theories/Props/EqualP.v
theories/Spec/ChannelS.v
theories/Proofs/ChannelL.v
theories/Props/ChannelP.v
theories/Props/ChannelP2.v
theories/Props/ChannelP3.v
theories/Props/MedianLawP.v
theories/Spec/ProfileS.v
theories/Proofs/ProfileL.v
theories/Props/ProfileP.v
theories/Props/HistLawP.v
theories/Props/GeomToneP2.v
theories/Props/MedianReachP.v
theories/Props/BilatGeomP.v
theories/Props/NearestLawP.v
theories/Props/ScaleReachP.v
theories/Props/TrimmedRowsP.v
theories/Props/RepoTestsP.v
theories/Spec/PipeS.v
theories/Proofs/PipeL.v
theories/Proofs/PipeL2.v
theories/Proofs/PipeSimdL.v
theories/Props/PipeP.v
theories/Spec/ErrS.v
theories/Proofs/ErrL.v
theories/Proofs/ErrL2.v
theories/Props/ErrP.v
theories/Props/ErrP2.v
