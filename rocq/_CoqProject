-Q theories Verif
theories/Base.v
theories/BaseLemmas.v
theories/Storage_Model.v
theories/Storage_Spec.v
theories/Storage_Proofs.v
theories/StorageFixed_Proofs.v
theories/Alias_Spec.v
theories/Alias_Proofs.v
theories/AliasF_Proofs.v
theories/Storage_Props.v
theories/Dense_Model.v
theories/Dense_Spec.v
theories/Dense_Proofs.v
theories/Striped_Proofs.v
theories/Dense2_Proofs.v
theories/Dense3_Proofs.v
theories/Dense_Props.v
theories/Sparse_Model.v
theories/Sparse_Spec.v
theories/Sparse_Proofs.v
theories/Sparse2_Proofs.v
theories/Sparse3_Proofs.v
theories/Sparse4_Proofs.v
theories/SparseT_Proofs.v
theories/SparseP_Proofs.v
theories/Sparse_Props.v
theories/Mult_Model.v
theories/Mult_Spec.v
theories/Mult_Proofs.v
theories/Mult2_Proofs.v
theories/Mult3_Proofs.v
theories/SparseF_Proofs.v
theories/Mult_Props.v
theories/Dyn_Model.v
theories/Dyn_Spec.v
theories/Dyn_Proofs.v
theories/Dyn2_Proofs.v
theories/Block_Proofs.v
theories/Conv_Spec.v
theories/Conv_Proofs.v
theories/Dyn_Props.v
theories/Eval_Spec.v
theories/Eval_Proofs.v
theories/Fp_Spec.v
theories/Fp_Proofs.v
theories/FpConv_Proofs.v
theories/Fp_Ieee.v
theories/Fp_Props.v
theories/Check_Model.v
theories/Check_Spec.v
theories/Check_Props.v
theories/Bsg_Model.v
theories/Bsg_Spec.v
theories/Bsg_Proofs.v
theories/Bsg2_Proofs.v
theories/Bsg_Props.v
theories/Norm_Model.v
theories/Norm_Spec.v
theories/Norm_Proofs.v
theories/Norm_Props.v
theories/IO_Model.v
theories/IO_Spec.v
theories/IO_Proofs.v
theories/IO_Props.v
theories/Text_Model.v
theories/Text_Spec.v
theories/Text_Proofs.v
theories/Text_Props.v
theories/Tools_Model.v
theories/Tools_Spec.v
theories/Tools_Proofs.v
theories/Tools2_Proofs.v
theories/Tools3_Proofs.v
theories/Tools_Props.v
theories/Eq_Model.v
theories/Eq_Spec.v
theories/Eq_Proofs.v
theories/Obj_Model.v
theories/Obj_Spec.v
theories/Obj_Proofs.v
theories/Eq_Props.v
theories/Blk_Props.v
theories/Bench_Model.v
theories/Bench_Spec.v
theories/Bench_Proofs.v
theories/Bench_Props.v
theories/Table_Props.v
theories/FpBench_Props.v
theories/SObj_Model.v
theories/SObj_Spec.v
theories/SObj_Proofs.v
theories/SObj_Props.v
theories/BlkAct_Model.v
theories/BlkAct_Props.v
theories/BlasIf_Model.v
theories/BlasIf_Data.v
theories/BlasIf_Spec.v
theories/BlasIf_Props.v
theories/File_Model.v
theories/File_Props.v
theories/Stream_Model.v
theories/Stream_Props.v
theories/Disp_Model.v
theories/Disp_Spec.v
theories/Disp_Props.v
theories/WObj_Model.v
theories/WObj_Spec.v
theories/WObj_Proofs.v
theories/WObj2_Proofs.v
theories/WObj_Props.v
theories/FpBlk_Props.v
theories/FpFin_Proofs.v
theories/FpFin2_Proofs.v
theories/FpFin3_Proofs.v
theories/FpRange.v
theories/FpRange_Props.v
theories/PObj_Model.v
theories/PObj_Spec.v
theories/PObj_Proofs.v
theories/PObj2_Proofs.v
theories/PObj3_Proofs.v
theories/PObj4_Proofs.v
theories/PObj5_Proofs.v
theories/PObj_Props.v
theories/Stk_Model.v
theories/Stk_Spec.v
theories/Stk_Props.v
theories/Query_Model.v
theories/Query_Spec.v
theories/Query_Props.v
theories/FpQuery_Props.v
theories/FpNorm_Spec.v
theories/FpNorm_Proofs.v
theories/FpNorm_Props.v
theories/FpNorm2_Props.v
theories/FpNorm3_Props.v
theories/Csr_Model.v
theories/Csr_Spec.v
theories/Csr_Proofs.v
theories/Csr_Props.v
theories/Csr2_Props.v
theories/ConvC_Model.v
theories/ConvC_Props.v
theories/ConvC2_Props.v
theories/Print_Model.v
theories/Print_Props.v
theories/Alloc_Model.v
theories/Alloc_Spec.v
theories/Alloc_Proofs.v
theories/AllocM_Model.v
theories/Alloc_Props.v
theories/Thr_Model.v
theories/Thr_Proofs.v
theories/Race_Model.v
theories/Race_Spec.v
theories/Race_Proofs.v
theories/Trk_Model.v
theories/Trk_Spec.v
theories/Trk_Proofs.v
theories/Thr_Props.v
theories/Alloc2_Props.v
theories/Exact_Props.v
theories/Exact2_Props.v
theories/Exact3_Props.v
theories/Exact4_Props.v
theories/Exact5_Props.v
theories/Exact6_Props.v
theories/Exact7_Props.v
theories/Exact8_Props.v
theories/Exact9_Props.v
theories/Exact10_Props.v
theories/Exact11_Props.v
theories/Exact12_Props.v
theories/Exact13_Props.v
theories/Exact14_Props.v
theories/Exact15_Props.v
theories/Exact16_Props.v
theories/Exact17_Props.v
theories/Exact18_Props.v
theories/Exact19_Props.v
theories/Exact20_Props.v
theories/Exact21_Props.v
theories/Exact22_Props.v
theories/Exact23_Props.v
theories/Exact24_Props.v
theories/Exact25_Props.v
theories/Exact26_Props.v
theories/Exact27_Props.v
theories/Exact28_Props.v
theories/Exact29_Props.v
theories/Exact30_Props.v
theories/Exact31_Props.v
theories/Exact32_Props.v
theories/Exact33_Props.v
theories/Exact34_Props.v
theories/Exact35_Props.v
theories/Exact36_Props.v
theories/Exact37_Props.v
theories/Exact38_Props.v
theories/Exact39_Props.v
theories/Exact40_Props.v
theories/Exact41_Props.v
