-Q theories Verif
theories/Base.v
theories/CuckooIndex_Model.v
theories/CuckooIndex_Spec.v
theories/CuckooIndex_Proofs.v
theories/CuckooConc_Model.v
theories/CuckooConc_Proofs.v
theories/CuckooParams_Model.v
theories/CuckooParams_Proofs.v
theories/Cuckoo_Properties.v
theories/SimpleIndex_Model.v
theories/SimpleIndex_Spec.v
theories/SimpleIndex_Proofs.v
theories/BinSize_Proofs.v
theories/SimpleIndex_Properties.v
theories/Tools_Spec.v
theories/SimpleHasher_Model.v
theories/SimpleHasher_Proofs.v
theories/Shuffle_Model.v
theories/Shuffle_Proofs.v
theories/Partition_Model.v
theories/Partition_Proofs.v
theories/Tools_Properties.v
theories/Kkrt_Model.v
theories/Kkrt_Proofs.v
theories/KkrtRecv_Proofs.v
theories/Kkrt_Spec.v
theories/KkrtMain_Proofs.v
theories/Kkrt_Properties.v
theories/Bgi_Model.v
theories/Bgi_Spec.v
theories/Bgi_Proofs.v
theories/BgiFull_Proofs.v
theories/BgiSum_Proofs.v
theories/BgiGen_Proofs.v
theories/BgiMulti_Proofs.v
theories/BgiBytes_Proofs.v
theories/Bgi_Properties.v
theories/File_Model.v
theories/File_Spec.v
theories/File_Proofs.v
theories/File_Properties.v
theories/Dcw_Model.v
theories/Dcw_Spec.v
theories/Dcw_Proofs.v
theories/Dcw_Properties.v
theories/Ecdh_Model.v
theories/Ecdh_Spec.v
theories/Ecdh_Proofs.v
theories/Ecdh_Properties.v
theories/Rr16_Model.v
theories/Rr16_Spec.v
theories/Rr16_Proofs.v
theories/Rr16_Properties.v
theories/Rr17_Model.v
theories/Rr17_Spec.v
theories/Rr17_Proofs.v
theories/Rr17a_Model.v
theories/Rr17a_Spec.v
theories/Rr17a_Proofs.v
theories/Rr17a_Properties.v
theories/Rr17b_Model.v
theories/Rr17b_Spec.v
theories/Rr17b_Proofs.v
theories/Rr17b_Properties.v
theories/Drrn_Model.v
theories/Drrn_Spec.v
theories/Drrn_Proofs.v
theories/DrrnMask_Proofs.v
theories/DrrnClient_Proofs.v
theories/DrrnServer_Proofs.v
theories/DrrnRun_Proofs.v
theories/DrrnTop_Proofs.v
theories/Drrn_Properties.v
theories/Balanced_Model.v
theories/Balanced_Spec.v
theories/Balanced_Proofs.v
theories/Balanced_Properties.v
theories/Grr18_Model.v
theories/Grr18_Spec.v
theories/Grr18_Proofs.v
theories/Grr18_Properties.v
theories/Dkt_Model.v
theories/Dkt_Spec.v
theories/Dkt_Proofs.v
theories/Dkt_Properties.v
theories/DktThreads_Model.v
theories/DktThreads_Proofs.v
theories/DktThreads_Properties.v
theories/Prty_Model.v
theories/Prty_Spec.v
theories/Prty_Proofs.v
theories/Prty_Properties.v
theories/PolyTree_Model.v
theories/PolyTree_Spec.v
theories/PolyTree_Proofs.v
theories/PolyTree_Proofs2.v
theories/PolyTree_Proofs3.v
theories/PolyTree_Properties.v
theories/PolyBig_Model.v
theories/PolyBig_Spec.v
theories/PolyBig_Proofs.v
theories/PolyBig_Properties.v
theories/PrtyDiff_Model.v
theories/PrtyDiff_Spec.v
theories/PrtyDiff_Proofs.v
theories/PrtyDiff_Proofs2.v
theories/PrtyDiff_Properties.v
theories/CuckooHasher_Model.v
theories/CuckooHasher_Spec.v
theories/CuckooHasher_Proofs.v
theories/CuckooHasher_Proofs2.v
theories/CuckooHasher_Proofs3.v
theories/CuckooHasher_Proofs4.v
theories/CuckooHasher_Proofs5.v
theories/CuckooHasher_Properties.v
theories/HasherConc_Model.v
theories/HasherConc_Spec.v
theories/HasherConc_Proofs.v
theories/HasherConc_Proofs2.v
theories/HasherConc_Proofs3.v
theories/HasherConc_Properties.v
theories/PolyNtl_Model.v
theories/PolyNtl_Spec.v
theories/PolyNtl_Field.v
theories/PolyNtl_Proofs.v
theories/PolyNtl_Proofs2.v
theories/PolyNtl_Properties.v
theories/BinProb_Model.v
theories/BinProb_Spec.v
theories/BinProb_Proofs.v
theories/BinProb_Proofs2.v
theories/BinProb_Properties.v
theories/Sched_Model.v
theories/Sched_Spec.v
theories/Sched_Proofs.v
theories/Sched_Proofs2.v
theories/Sched_Proofs3.v
theories/Threads_Model.v
theories/Threads_Proofs.v
theories/Threads_Proofs2.v
theories/Threads_Proofs3.v
theories/Threads_Proofs4.v
theories/Threads_Proofs5.v
theories/Threads_Proofs6.v
theories/Threads_Properties.v
theories/Masks_Model.v
theories/Masks_Spec.v
theories/Masks_Proofs.v
theories/Masks_Proofs2.v
theories/Masks_Proofs3.v
theories/Masks_Proofs4.v
theories/Masks_Properties.v
theories/Init_Model.v
theories/Init_Spec.v
theories/Init_Proofs.v
theories/Init_Proofs2.v
theories/Init_Properties.v
theories/Threads2_Model.v
theories/Threads2_Proofs.v
theories/Threads2_Proofs2.v
theories/Threads2_Proofs3.v
theories/Threads2_Properties.v
theories/Capture_Model.v
theories/Capture_Spec.v
theories/Capture_Proofs.v
theories/Capture_Properties.v
theories/Buffers_Model.v
theories/Buffers_Proofs.v
theories/Buffers_Properties.v
theories/DktForge_Spec.v
theories/DktForge_Proofs.v
theories/DktForge_Properties.v
theories/BgiPrivacy_Spec.v
theories/BgiPrivacy_Proofs.v
theories/BgiPrivacy_Properties.v
theories/Order_Spec.v
theories/Order_Proofs.v
theories/OrderKkrt_Spec.v
theories/OrderKkrt_Proofs.v
theories/OrderKkrt_Properties.v
theories/OrderRr17_Spec.v
theories/OrderRr17b_Proofs.v
theories/OrderRr17a_Proofs.v
theories/OrderRr17_Properties.v
theories/OrderInput_Spec.v
theories/OrderInput_Proofs.v
theories/OrderInput_Properties.v
theories/OrderGrr_Spec.v
theories/OrderGrr_Proofs.v
theories/OrderGrr_Properties.v
theories/GrrNoise_Model.v
theories/GrrNoise_Spec.v
theories/GrrNoise_Proofs.v
theories/GrrNoise_Proofs2.v
theories/GrrNoise_Proofs3.v
theories/GrrNoise_Proofs4.v
theories/GrrNoise_Proofs5.v
theories/GrrNoise_Properties.v
theories/Rr16Perm_Spec.v
theories/Rr16Perm_Proofs.v
theories/Rr16Perm_Properties.v
theories/PrtyHide_Spec.v
theories/PrtyHide_Proofs.v
theories/PrtyHide_Properties.v
theories/DktHide_Spec.v
theories/DktHide_Proofs.v
theories/DktHide_Properties.v
theories/MaskHide_Spec.v
theories/MaskHide_Proofs.v
theories/MaskHide_Dcw.v
theories/MaskHide_Properties.v
theories/Reveal_Spec.v
theories/Reveal_Proofs.v
theories/Reveal_Properties.v
theories/RevealRr17_Spec.v
theories/RevealRr17_Proofs.v
theories/RevealRr17_Properties.v
theories/PrtyPlace_Model.v
theories/PrtyPlace_Spec.v
theories/PrtyPlace_Proofs.v
theories/PrtyPlace_Properties.v
theories/AknParams_Model.v
theories/AknParams_Spec.v
theories/AknParams_Proofs.v
theories/AknParams_Proofs2.v
theories/AknParams_Proofs3.v
theories/AknParams_Proofs4.v
theories/AknParams_Properties.v
theories/Rr17aChan_Spec.v
theories/Rr17aChan_Proofs.v
theories/Rr17aChan_Proofs2.v
theories/Rr17aChan_Properties.v
theories/RevealRr17b_Spec.v
theories/RevealRr17b_Proofs.v
theories/RevealRr17b_Properties.v
theories/DrrnView_Model.v
theories/DrrnView_Spec.v
theories/DrrnView_Proofs.v
theories/DrrnView_Proofs2.v
theories/DrrnView_Proofs3.v
theories/DrrnView_Properties.v
theories/DrrnHit_Model.v
theories/DrrnHit_Spec.v
theories/DrrnHit_Proofs.v
theories/DrrnHit_Proofs2.v
theories/DrrnHit_Properties.v
theories/PrtyBits_Spec.v
theories/PrtyBits_Proofs.v
theories/PrtyBits_Proofs2.v
theories/PrtyBits_Properties.v
theories/SimpleAgain_Model.v
theories/SimpleAgain_Spec.v
theories/SimpleAgain_Proofs.v
theories/SimpleAgain_Properties.v
theories/Reuse_Model.v
theories/Reuse_Spec.v
theories/Reuse_Proofs.v
theories/Reuse_Properties.v
theories/DrrnFull_Model.v
theories/DrrnFull_Spec.v
theories/DrrnFull_Proofs.v
theories/DrrnFull_Properties.v
theories/DrrnThreads_Model.v
theories/DrrnThreads_Proofs.v
theories/DrrnThreads_Proofs2.v
theories/DrrnThreads_Properties.v
theories/Collect_Model.v
theories/Collect_Proofs.v
theories/Collect_Properties.v
theories/PrtyHash_Model.v
theories/PrtyHash_Proofs.v
theories/PrtyHash_Properties.v
theories/BigRun_Model.v
theories/BigRun_Spec.v
theories/BigRun_Proofs.v
theories/BigRun_Proofs2.v
theories/BigRun_Properties.v
theories/Phases_Model.v
theories/Phases_Spec.v
theories/Phases_Proofs.v
theories/Phases_Proofs2.v
theories/Phases_Proofs3.v
theories/Phases_Proofs4.v
theories/Phases_Properties.v
theories/FilePsi_Model.v
theories/FilePsi_Spec.v
theories/FilePsi_Proofs.v
theories/FilePsi_Proofs2.v
theories/FilePsi_Proofs3.v
theories/FilePsi_Proofs4.v
theories/FilePsi_Properties.v
theories/Bench_Model.v
theories/Bench_Spec.v
theories/Bench_Proofs.v
theories/Bench_Proofs2.v
theories/Bench_Proofs3.v
theories/Bench_Properties.v
theories/BgiNaive_Spec.v
theories/BgiNaive_Proofs.v
theories/BgiNaive_Properties.v
theories/BalancedAgain_Proofs.v
theories/BalancedAgain_Properties.v
theories/Volume_Spec.v
theories/Volume_Proofs.v
theories/Volume_Proofs2.v
theories/Volume_Proofs3.v
theories/Volume_Properties.v
theories/BestRun_Model.v
theories/BestRun_Spec.v
theories/BestRun_Proofs.v
theories/BestRun_Proofs2.v
theories/BestRun_Properties.v
theories/Measure_Model.v
theories/Measure_Spec.v
theories/Measure_Proofs.v
theories/Measure_Proofs2.v
theories/Measure_Properties.v
theories/Volume_Proofs4.v
theories/Volume_Properties2.v
theories/Foreign_Model.v
theories/Foreign_Spec.v
theories/Foreign_Proofs.v
theories/Foreign_Proofs2.v
theories/Foreign_Properties.v
theories/Ecdh_Properties2.v
theories/Foreign2_Model.v
theories/Foreign2_Spec.v
theories/Foreign2_Proofs.v
theories/Foreign2_Proofs2.v
theories/Foreign2_Properties.v
theories/Validate_Model.v
theories/Validate_Spec.v
theories/Validate_Proofs.v
theories/Validate_Properties.v
theories/OtWidth_Model.v
theories/OtWidth_Spec.v
theories/OtWidth_Proofs.v
theories/OtWidth_Properties.v
theories/GrrTable_Model.v
theories/GrrTable_Spec.v
theories/GrrTable_Proofs.v
theories/GrrTable_Proofs2.v
theories/GrrTable_Proofs3.v
theories/GrrTable_Proofs4.v
theories/GrrTable_Properties.v
theories/Foreign3_Model.v
theories/Foreign3_Spec.v
theories/Foreign3_Proofs.v
theories/Foreign3_Properties.v
theories/MsgLen_Model.v
theories/MsgLen_Spec.v
theories/MsgLen_Proofs.v
theories/MsgLen_Properties.v
theories/DrrnShare_Spec.v
theories/DrrnShare_Proofs.v
theories/DrrnShare_Properties.v
theories/DrrnShareFull_Properties.v
theories/DktMask_Model.v
theories/DktMask_Spec.v
theories/DktMask_Proofs.v
theories/DktMask_Properties.v
theories/EcdhHide_Spec.v
theories/EcdhHide_Proofs.v
theories/EcdhHide_Properties.v
theories/Foreign4_Properties.v
theories/Bench2_Proofs.v
theories/Bench2_Properties.v
theories/GrrSend_Model.v
theories/GrrSend_Spec.v
theories/GrrSend_Proofs.v
theories/GrrSend_Properties.v
theories/Fail_Model.v
theories/Fail_Spec.v
theories/Fail_Proofs.v
theories/Fail_Properties.v
