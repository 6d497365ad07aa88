-Q theories Verif
theories/Base.v
theories/M_Arith.v
theories/M_ArithBlk.v
theories/M_BitRead.v
theories/M_Bmp.v
theories/M_CApi.v
theories/M_Coef.v
theories/M_ColMap.v
theories/M_Color.v
theories/M_DApi.v
theories/M_DMain.v
theories/M_DataSrc.v
theories/M_Gather.v
theories/M_GenTbl.v
theories/M_Geom.v
theories/M_Gif.v
theories/M_HuffDec.v
theories/M_HuffEnc.v
theories/M_HuffFast.v
theories/M_HuffTbl.v
theories/M_Icc.v
theories/M_Idct.v
theories/M_LossHuff.v
theories/M_Lossless.v
theories/M_MarkRd.v
theories/M_MarkWr.v
theories/M_Median.v
theories/M_Mem.v
theories/M_MemDst.v
theories/M_Merge.v
theories/M_PHuff.v
theories/M_Pnm.v
theories/M_Prep.v
theories/M_Quant.v
theories/M_Quant1.v
theories/M_Quant2.v
theories/M_RangeLimit.v
theories/M_Sample.v
theories/M_ScanOpt.v
theories/M_Scans.v
theories/M_Script.v
theories/M_Skip.v
theories/M_Slots.v
theories/M_Smooth.v
theories/M_Source.v
theories/M_Switch.v
theories/M_TJBuf.v
theories/M_Targa.v
theories/M_Trellis.v
theories/M_Wrcom.v
theories/M_Xform.v
theories/P_Arith.v
theories/P_Arith2.v
theories/P_Arith3.v
theories/P_ArithBlk.v
theories/P_ArithBlk2.v
theories/P_ArithBlk3.v
theories/P_BitRead.v
theories/P_Bmp.v
theories/P_Bmp2.v
theories/P_Bmp3.v
theories/P_Bmp4.v
theories/P_Bmp5.v
theories/P_Bmp6.v
theories/P_Bmp7.v
theories/P_Bmp8.v
theories/P_Bmp9.v
theories/P_BmpRej.v
theories/P_CApi.v
theories/P_DMain.v
theories/P_DecRef.v
theories/P_EncTbl.v
theories/P_Frame.v
theories/P_Gather.v
theories/P_GenMerge.v
theories/P_GenTbl.v
theories/P_GifBits.v
theories/P_GifHdr.v
theories/P_GifLzw.v
theories/P_GifRead.v
theories/P_GifSafe.v
theories/P_HuffDec.v
theories/P_HuffEnc.v
theories/P_HuffFast.v
theories/P_HuffMcu.v
theories/P_HuffScan.v
theories/P_HuffSym.v
theories/P_HuffTbl.v
theories/P_HuffTblD.v
theories/P_Icc.v
theories/P_Idct.v
theories/P_LossDec.v
theories/P_LossHuff.v
theories/P_MCU.v
theories/P_MCUDec.v
theories/P_MCUFirst.v
theories/P_MCUPass.v
theories/P_MCUStore.v
theories/P_MarkRd.v
theories/P_MarkWr.v
theories/P_MarkWr2.v
theories/P_MarkWr3.v
theories/P_MarkWr4.v
theories/P_Marker.v
theories/P_Median.v
theories/P_Mem.v
theories/P_MemDst.v
theories/P_Merge.v
theories/P_Merge2.v
theories/P_Merge3.v
theories/P_PHuff.v
theories/P_PHuff2.v
theories/P_PHuff3.v
theories/P_PHuff4.v
theories/P_PHuff5.v
theories/P_PHuff6.v
theories/P_PHuff7.v
theories/P_Pixel.v
theories/P_Pnm.v
theories/P_Pnm2.v
theories/P_Pnm3.v
theories/P_Pnm4.v
theories/P_Prep.v
theories/P_Prep2.v
theories/P_Prep3.v
theories/P_Prep4.v
theories/P_Quant1.v
theories/P_Quant2.v
theories/P_Reach.v
theories/P_Resume.v
theories/P_Round.v
theories/P_RoundScan.v
theories/P_Sample.v
theories/P_SampleD.v
theories/P_ScanOpt.v
theories/P_Scans.v
theories/P_Scans2.v
theories/P_Script.v
theories/P_Skip.v
theories/P_Skip2.v
theories/P_Skip3.v
theories/P_Smooth.v
theories/P_Smooth2.v
theories/P_Smooth3.v
theories/P_Smooth4.v
theories/P_Smooth5.v
theories/P_Switch.v
theories/P_Targa.v
theories/P_Targa2.v
theories/P_Trellis.v
theories/P_TrellisRow.v
theories/P_Wrcom.v
theories/P_Xform.v
theories/P_XformG.v
theories/S_Block.v
theories/S_Bmp.v
theories/S_CApi.v
theories/S_Coef.v
theories/S_ColMap.v
theories/S_DApi.v
theories/S_DMain.v
theories/S_Gather.v
theories/S_Gif.v
theories/S_GifInter.v
theories/S_Huff.v
theories/S_Icc.v
theories/S_Idct.v
theories/S_LossHuff.v
theories/S_Lossless.v
theories/S_MCU.v
theories/S_MarkRd.v
theories/S_MarkWr.v
theories/S_Median.v
theories/S_Mem.v
theories/S_Merge.v
theories/S_Pixel.v
theories/S_Pnm.v
theories/S_Prep.v
theories/S_Prog.v
theories/S_Quant.v
theories/S_Resync.v
theories/S_Sample.v
theories/S_Scans.v
theories/S_Script.v
theories/S_Skip.v
theories/S_Slots.v
theories/S_Smooth.v
theories/S_Stream.v
theories/S_Switch.v
theories/S_TJBuf.v
theories/S_Targa.v
theories/S_Trellis.v
theories/S_Wrcom.v
theories/S_Xform.v
theories/S_Zigzag.v
theories/T_Arith.v
theories/T_ArithBlk.v
theories/T_Bmp.v
theories/T_CApi.v
theories/T_ColMap.v
theories/T_Color.v
theories/T_ColourQuant.v
theories/T_Context.v
theories/T_DApi.v
theories/T_DataSrc.v
theories/T_Gather.v
theories/T_GenTbl.v
theories/T_Geom.v
theories/T_Gif.v
theories/T_GifInter.v
theories/T_GifSafe.v
theories/T_HuffDec.v
theories/T_HuffEnc.v
theories/T_HuffTbl.v
theories/T_Icc.v
theories/T_Idct.v
theories/T_LossHuff.v
theories/T_Lossless.v
theories/T_MCU.v
theories/T_MarkRd.v
theories/T_MarkWr.v
theories/T_Median.v
theories/T_Mem.v
theories/T_MemDst.v
theories/T_Merge.v
theories/T_PHuff.v
theories/T_Pnm.v
theories/T_Prep.v
theories/T_Quant.v
theories/T_RangeLimit.v
theories/T_Round.v
theories/T_Sample.v
theories/T_ScanOpt.v
theories/T_Scans.v
theories/T_Script.v
theories/T_Skip.v
theories/T_Slots.v
theories/T_Smooth.v
theories/T_Switch.v
theories/T_TJBound.v
theories/T_TJBuf.v
theories/T_Targa.v
theories/T_Trellis.v
theories/T_Wrcom.v
theories/T_Xform.v
