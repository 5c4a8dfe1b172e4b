-Q theories Verif
theories/Base.v
theories/Checksum_Model.v
theories/Checksum_Spec.v
theories/Checksum_Proofs.v
theories/Checksum_Props.v
theories/Bits.v
theories/IntOps_Model.v
theories/IntOps_Spec.v
theories/IntOps_Proofs.v
theories/IntOps_Proofs2.v
theories/IntOps_Proofs3.v
theories/IntOps_Proofs4.v
theories/IntOps_Props.v
theories/Algorithm_Model.v
theories/Algorithm_Spec.v
theories/Algorithm_Proofs.v
theories/Algorithm_Proofs2.v
theories/Algorithm_Props.v
theories/Random_Model.v
theories/Random_Proofs.v
theories/Random_Proofs2.v
theories/Random_Proofs3.v
theories/Random_Props.v
theories/PixelOps_Model.v
theories/PixelOps_Spec.v
theories/PixelOps_Proofs.v
theories/PixelOps_Proofs2.v
theories/PixelOps_Props.v
theories/Qoi_Model.v
theories/Qoi_Spec.v
theories/Qoi_Proofs.v
theories/Qoi_Proofs2.v
theories/Qoi_Proofs3.v
theories/Qoi_Proofs4.v
theories/Qoi_Proofs5.v
theories/Qoi_Proofs6.v
theories/Qoi_Proofs7.v
theories/Qoi_Props.v
theories/Unicode_Model.v
theories/Unicode_Spec.v
theories/Unicode_Proofs.v
theories/Unicode_Proofs2.v
theories/Unicode_Proofs3.v
theories/Unicode_Proofs4.v
theories/Unicode_Proofs5.v
theories/Unicode_Props.v
theories/Object_Model.v
theories/Object_Spec.v
theories/Object_Proofs.v
theories/Object_Proofs2.v
theories/BitArray_Model.v
theories/BitArray_Spec.v
theories/BitArray_Proofs.v
theories/BitArray_Proofs2.v
theories/BitArray_Proofs3.v
theories/BitArray_Proofs4.v
theories/BitArray_Proofs5.v
theories/BitArray_Proofs6.v
theories/BitArray_Proofs7.v
theories/BitArray_Client.v
theories/BitArray_Proofs8.v
theories/BitArray_Proofs9.v
theories/BitArray_Props.v
theories/Object_Client.v
theories/Object_Proofs3.v
theories/Object_Props.v
theories/Handle_Client.v
theories/Handle_Proofs.v
theories/Array_Model.v
theories/Array_Spec.v
theories/Array_Proofs.v
theories/Array_Proofs2.v
theories/Array_Proofs3.v
theories/Array_Proofs4.v
theories/Array_Proofs5.v
theories/Array_Proofs6.v
theories/Array_Proofs7.v
theories/Array_Props.v
theories/String_Model.v
theories/String_Spec.v
theories/String_Proofs.v
theories/String_Proofs2.v
theories/String_Proofs3.v
theories/String_Proofs4.v
theories/String_Proofs5.v
theories/String_Props.v
theories/Png_Model.v
theories/Png_Spec.v
theories/Png_Proofs.v
theories/Png_Proofs2.v
theories/Png_Proofs3.v
theories/Png_Proofs4.v
theories/Png_Proofs5.v
theories/Png_Proofs6.v
theories/Png_Proofs7.v
theories/Png_Proofs8.v
theories/Png_Proofs9.v
theories/Png_Proofs10.v
theories/Png_Proofs11.v
theories/Png_Proofs12.v
theories/Png_Props.v
theories/PngChunk_Model.v
theories/PngChunk_Spec.v
theories/PngChunk_Proofs.v
theories/PngChunk_Proofs2.v
theories/PngChunk_Proofs3.v
theories/PngChunk_Proofs4.v
theories/PngChunk_Props.v
theories/Deflate_Spec.v
theories/DeflateTable_Model.v
theories/DeflateTable_Proofs.v
theories/DeflateTable_Proofs2.v
theories/DeflateTable_Proofs3.v
theories/DeflateTable_Proofs4.v
theories/DeflateTable_Proofs5.v
theories/DeflateTable_Proofs6.v
theories/DeflateTable_Proofs7.v
theories/DeflateTable_Proofs8.v
theories/DeflateTable_Proofs9.v
theories/DeflateTable_Props.v
theories/Inflate_Spec.v
theories/Inflate_Proofs.v
theories/DeflateDecoder_Model.v
theories/DeflateDecoder_Proofs.v
theories/DeflateDecoder_Proofs2.v
theories/DeflateDecoder_Proofs3.v
theories/DeflateDecoder_Proofs4.v
theories/DeflateDecoder_Proofs5.v
theories/DeflateDecoder_Proofs6.v
theories/DeflateDecoder_Proofs7.v
theories/DeflateDecoder_Proofs8.v
theories/DeflateDecoder_Proofs9.v
theories/DeflateDecoder_Proofs10.v
theories/DeflateDecoder_Frame.v
theories/Inflate_Exec.v
theories/DeflateDecoder_Props.v
theories/Bmp_Model.v
theories/Bmp_Spec.v
theories/Bmp_Proofs.v
theories/Bmp_Proofs2.v
theories/Bmp_Proofs3.v
theories/Bmp_Proofs4.v
theories/Bmp_Proofs5.v
theories/Bmp_Proofs6.v
theories/Bmp_Proofs7.v
theories/Bmp_Props.v
theories/CMap_Model.v
theories/CMap_Spec.v
theories/CMap_Proofs.v
theories/CMap_Proofs2.v
theories/CMap_Proofs3.v
theories/CMap_Proofs4.v
theories/CMap_Props.v
theories/UniqueId_Model.v
theories/UniqueId_Proofs.v
theories/UniqueId_Proofs2.v
theories/UniqueId_Props.v
theories/CompOp_Model.v
theories/CompOp_Spec.v
theories/CompOp_Proofs.v
theories/CompOp_Proofs2.v
theories/CompOp_Props.v
theories/PixGen_Model.v
theories/PixGen_Spec.v
theories/PixGen_Proofs.v
theories/PixGen_Proofs2.v
theories/PixGen_Props.v
theories/Fill_Model.v
theories/Fill_Spec.v
theories/Fill_Proofs.v
theories/Fill_Proofs2.v
theories/Fill_Proofs3.v
theories/Fill_Proofs4.v
theories/Fill_Proofs5.v
theories/Fill_Props.v
theories/Analytic_Model.v
theories/Analytic_Spec.v
theories/Analytic_Proofs.v
theories/Analytic_Proofs2.v
theories/Analytic_Proofs3.v
theories/Analytic_Props.v
theories/TagData_Model.v
theories/TagData_Spec.v
theories/TagData_Proofs.v
theories/TagData_Props.v
theories/FontFeature_Model.v
theories/FontFeature_Spec.v
theories/FontFeature_Exec.v
theories/FontFeature_Proofs.v
theories/FontFeature_Proofs2.v
theories/FontFeature_Proofs3.v
theories/FontFeature_Proofs4.v
theories/FontFeature_Proofs5.v
theories/FontFeature_Proofs6.v
theories/FontFeature_Proofs7.v
theories/FontFeature_Proofs8.v
theories/FontFeature_Proofs9.v
theories/FontFeature_Props.v
theories/Gradient_Model.v
theories/Gradient_Spec.v
theories/Gradient_Exec.v
theories/Gradient_Proofs.v
theories/Gradient_Proofs2.v
theories/Gradient_Proofs3.v
theories/Gradient_Proofs4.v
theories/Gradient_Proofs5.v
theories/Gradient_Proofs6.v
theories/Gradient_Proofs7.v
theories/Gradient_Props.v
theories/Format_Model.v
theories/Format_Spec.v
theories/Format_Proofs.v
theories/Format_Proofs2.v
theories/Format_Props.v
theories/Interp_Model.v
theories/Interp_Spec.v
theories/Interp_Proofs.v
theories/Interp_Proofs2.v
theories/Interp_Proofs3.v
theories/Interp_Proofs4.v
theories/Interp_Props.v
theories/HashMap_Model.v
theories/HashMap_Spec.v
theories/HashMap_Proofs.v
theories/HashMap_Proofs2.v
theories/HashMap_Proofs3.v
theories/HashMap_Props.v
theories/JpegHuff_Model.v
theories/JpegHuff_Spec.v
theories/JpegHuff_Proofs.v
theories/JpegHuff_Proofs2.v
theories/JpegHuff_Props.v
theories/JpegBits_Model.v
theories/JpegBits_Spec.v
theories/JpegBits_Proofs.v
theories/JpegBits_Props.v
theories/JpegSymbols_Model.v
theories/JpegSymbols_Props.v
