-Q theories Verif
theories/Base.v
theories/Base_lemmas.v
theories/Chs_model.v
theories/Chs_spec.v
theories/Chs_proofs.v
theories/Chs_props.v
theories/BitRing_model.v
theories/RangeCheck_model.v
theories/Mfm_model.v
theories/Mfm_spec.v
theories/BitRing_proofs.v
theories/Mfm_proofs.v
theories/Marker_proofs.v
theories/RangeCheck_proofs.v
theories/Weak_proofs.v
theories/Codec_lemmas.v
theories/Codec_props.v
theories/Crc_model.v
theories/Crc_spec.v
theories/Crc_proofs.v
theories/Crc16_proofs.v
theories/Crc_props.v
theories/OddEven_model.v
theories/OddEven_spec.v
theories/OddEven_proofs.v
theories/OddEven_props.v
theories/DateTime_model.v
theories/DateTime_spec.v
theories/DateTime_proofs.v
theories/DateTime_props.v
theories/TreeMap_model.v
theories/TreeMap_spec.v
theories/TreeMap_proofs.v
theories/TreeMap_props.v
theories/Types_model.v
theories/MetaSector_model.v
theories/MetaSector_spec.v
theories/MetaSector_proofs.v
theories/MetaSector_props.v
theories/System34_model.v
theories/BitStream_model.v
theories/Stream_proofs.v
theories/System34_spec.v
theories/S34_layout_proofs.v
theories/S34_format_proofs.v
theories/S34_scan_proofs.v
theories/S34_clock_proofs.v
theories/S34_meta_proofs.v
theories/S34_track_proofs.v
theories/S34_ops_proofs.v
theories/S34_write_proofs.v
theories/BitStream_spec.v
theories/Bs_general_proofs.v
theories/Bs_history_proofs.v
theories/Bs_write_proofs.v
theories/Bs_more_proofs.v
theories/Bs_api_proofs.v
theories/Bs_loaded_proofs.v
theories/BitStream_props.v
theories/DiskImage_model.v
theories/DiskImage_spec.v
theories/DiskImage_proofs.v
theories/DiskImage2_proofs.v
theories/DiskImage_props.v
theories/Format_model.v
theories/Format_spec.v
theories/Format_proofs.v
theories/Format2_proofs.v
theories/Format3_proofs.v
theories/Format_props.v
theories/SectorView_model.v
theories/SectorView_spec.v
theories/SectorView_proofs.v
theories/SectorView2_proofs.v
theories/SectorView_props.v
theories/Raw_model.v
theories/Raw_spec.v
theories/Raw_proofs.v
theories/Raw2_proofs.v
theories/Raw3_proofs.v
theories/Raw4_proofs.v
theories/Raw5_proofs.v
theories/Raw_props.v
theories/Crc32_model.v
theories/Crc32_spec.v
theories/Crc32_proofs.v
theories/Crc32_props.v
theories/Pce_model.v
theories/Pce_proofs.v
theories/Pce_spec.v
theories/Pce2_proofs.v
theories/Pce3_proofs.v
theories/Pce4_proofs.v
theories/Pce_props.v
theories/Imd_model.v
theories/Imd_spec.v
theories/Imd_proofs.v
theories/Imd2_proofs.v
theories/Imd_props.v
theories/Fm_model.v
theories/Fm_spec.v
theories/Fm_proofs.v
theories/Fm_props.v
theories/Psi_model.v
theories/Psi_spec.v
theories/Psi_proofs.v
theories/Psi2_proofs.v
theories/Psi_props.v
theories/F86_model.v
theories/F86_spec.v
theories/F86_proofs.v
theories/F86b_proofs.v
theories/F86c_proofs.v
theories/F86_props.v
theories/Chs2_props.v
theories/BitStream2_props.v
theories/More_props.v
theories/Layout_spec.v
theories/Layout_proofs.v
theories/Tc_model.v
theories/Tc_spec.v
theories/Tc_proofs.v
theories/Tc_props.v
theories/Hxc_model.v
theories/Hxc_spec.v
theories/Hxc_proofs.v
theories/Hxm_props.v
theories/Hfe_proofs.v
theories/Hfe_props.v
theories/Huff_model.v
theories/Lzhuf_spec.v
theories/Huff_proofs.v
theories/Huffb_proofs.v
theories/Huffc_proofs.v
theories/Huffd_proofs.v
theories/Huffe_proofs.v
theories/Lzhuf_model.v
theories/Lzhuf_proofs.v
theories/Huffenc_proofs.v
theories/Lzhufd_proofs.v
theories/Lzhuf_props.v
theories/Lzw_model.v
theories/Lzw_spec.v
theories/Lzw_proofs.v
theories/Lzw_props.v
theories/Td0_model.v
theories/Td0_spec.v
theories/Td0_proofs.v
theories/Td0b_proofs.v
theories/Td0_props.v
theories/Pll_model.v
theories/Pll_inv.v
theories/Pll_spec.v
theories/Pll_proofs.v
theories/Pll2_proofs.v
theories/Pll3_proofs.v
theories/Pll_props.v
theories/Flux_model.v
theories/Flux_spec.v
theories/Flux_proofs.v
theories/Scp_model.v
theories/Scp_spec.v
theories/Scp_proofs.v
theories/Scp_props.v
theories/Pfi_model.v
theories/Pfi_spec.v
theories/Pfi_proofs.v
theories/Pfi2_proofs.v
theories/Pfi3_proofs.v
theories/Pfi_props.v
theories/Kfx_model.v
theories/Kfx_spec.v
theories/Kfx_proofs.v
theories/Kfx2_proofs.v
theories/Kfx3_proofs.v
theories/Kfx_props.v
theories/KfxSet_spec.v
theories/KfxSet_proofs.v
theories/KfxSet_props.v
theories/Hist_model.v
theories/Hist_spec.v
theories/Hist_proofs.v
theories/Hist2_proofs.v
theories/Hist3_proofs.v
theories/Hist_props.v
theories/Mfi_model.v
theories/Mfi_spec.v
theories/Mfi_proofs.v
theories/Mfi2_proofs.v
theories/Mfi_props.v
theories/Total_spec.v
theories/Total_proofs.v
theories/Total_props.v
theories/Session_spec.v
theories/Session_proofs.v
theories/Session_props.v
theories/Recalc_props.v
theories/Amiga_model.v
theories/Amiga_spec.v
theories/Amiga_proofs.v
theories/Amiga2_proofs.v
theories/Amiga3_proofs.v
theories/Amiga4_proofs.v
theories/Amiga5_proofs.v
theories/Amiga_props.v
theories/Ipf_model.v
theories/Ipf_spec.v
theories/Ipf_proofs.v
theories/Ipf2_proofs.v
theories/Ipf_props.v
theories/Ipfgap_props.v
theories/Builder_model.v
theories/Builder_spec.v
theories/Builder_proofs.v
theories/Builder_props.v
theories/Lock_model.v
theories/Lock_spec.v
theories/Lock_proofs.v
theories/Lock_props.v
theories/FileTree_model.v
theories/FileTree_spec.v
theories/FileTree_props.v
theories/Segmenter_model.v
theories/Segmenter_props.v
theories/AmigaRange_props.v
theories/CopyProt_model.v
theories/CopyProt_props.v
