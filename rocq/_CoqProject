-Q theories Verif
theories/Aes_Model.v
theories/Aes_Proofs.v
theories/Aes_Props.v
theories/Aes_Spec.v
theories/Assoc_Spec.v
theories/Await_Deliver.v
theories/Await_Model.v
theories/Await_Proofs.v
theories/Await_Props.v
theories/Await_Spec.v
theories/Base58_Model.v
theories/Base58_Proofs.v
theories/Base58_Props.v
theories/Base58_Spec.v
theories/BloomRate_Count.v
theories/BloomRate_Model.v
theories/BloomRate_Proofs.v
theories/BloomRate_Props.v
theories/BloomRate_Spec.v
theories/BloomRate_Upper.v
theories/Bloom_Conc.v
theories/Bloom_Model.v
theories/Bloom_Proofs.v
theories/Bloom_Props.v
theories/Bloom_Spec.v
theories/Buffer_Model.v
theories/Buffer_Proofs.v
theories/Buffer_Props.v
theories/Buffer_Spec.v
theories/CHash_Crc.v
theories/CHash_Model.v
theories/CHash_Proofs.v
theories/CHash_Props.v
theories/CHash_Spec.v
theories/Compress_Model.v
theories/Compress_Proofs.v
theories/Compress_Props.v
theories/Conc.v
theories/Crc8_Model.v
theories/Crc8_Proofs.v
theories/Crc8_Props.v
theories/Crc8_Spec.v
theories/CrcCode_Proofs.v
theories/CrcStd_Proofs.v
theories/Crc_Model.v
theories/Crc_Proofs.v
theories/Crc_Props.v
theories/Crc_Spec.v
theories/Digest_Model.v
theories/Digest_Proofs.v
theories/Digest_Props.v
theories/Digest_Spec.v
theories/FastAwait_Model.v
theories/FastAwait_Proofs.v
theories/FastAwait_Props.v
theories/FastAwait_Spec.v
theories/Fast_Model.v
theories/Fast_Proofs.v
theories/Fast_Props.v
theories/Fast_Spec.v
theories/Fastio_Model.v
theories/Fastio_Proofs.v
theories/Fastio_Props.v
theories/Fastio_Spec.v
theories/FileIO_Model.v
theories/FileIO_Props.v
theories/GoFloat.v
theories/GoInt.v
theories/GoList_Model.v
theories/GoList_Proofs.v
theories/GoSlice.v
theories/GopoolNest_Model.v
theories/GopoolNest_Proofs.v
theories/GopoolNest_Props.v
theories/GopoolNest_Spec.v
theories/Gopool_End.v
theories/Gopool_Limit.v
theories/Gopool_Model.v
theories/Gopool_Proofs.v
theories/Gopool_Props.v
theories/Gopool_Spec.v
theories/Hash_Model.v
theories/ImageCrop_Proofs.v
theories/Image_Model.v
theories/Image_Proofs.v
theories/Image_Props.v
theories/Image_Spec.v
theories/Inflate_Bomb.v
theories/Inflate_Huff.v
theories/Inflate_Model.v
theories/Inflate_More.v
theories/Inflate_Proofs.v
theories/Inflate_Props.v
theories/Inflate_Spec.v
theories/Inflate_Stream.v
theories/Json_Chars.v
theories/Json_Encode.v
theories/Json_Model.v
theories/Json_Proofs.v
theories/Json_Props.v
theories/Json_Spec.v
theories/Keyed_Proofs.v
theories/Keystore_Model.v
theories/Keystore_Proofs.v
theories/Keystore_Props.v
theories/Keystore_Spec.v
theories/LimitHash_Model.v
theories/LimitHash_Proofs.v
theories/LimitHash_Props.v
theories/LimitHash_Spec.v
theories/LimitMap_Model.v
theories/LimitMap_Proofs.v
theories/LimitMap_Props.v
theories/LimitMap_Spec.v
theories/LinAtomic_Proofs.v
theories/LinGet_Proofs.v
theories/LinObj_Model.v
theories/LinObj_Proofs.v
theories/LinSeg_Proofs.v
theories/Lin_Model.v
theories/Lin_More.v
theories/Lin_Proofs.v
theories/Lin_Props.v
theories/Lin_Refute.v
theories/Lin_Spec.v
theories/Linked_Model.v
theories/Linked_Proofs.v
theories/Linked_Props.v
theories/Linked_Spec.v
theories/Lock_Model.v
theories/Lock_Proofs.v
theories/Lock_Props.v
theories/Lock_Spec.v
theories/Lru_Model.v
theories/Lru_Proofs.v
theories/Lru_Props.v
theories/Lru_Spec.v
theories/Map_Model.v
theories/Map_Proofs.v
theories/Map_Props.v
theories/Map_Spec.v
theories/MmapLife_Model.v
theories/MmapLife_Proofs.v
theories/MmapLife_Props.v
theories/MmapLife_Spec.v
theories/Mmap_Model.v
theories/Mmap_Proofs.v
theories/Mmap_Props.v
theories/Mmap_Run.v
theories/Mmap_Spec.v
theories/NanLimit_Model.v
theories/NanLimit_Proofs.v
theories/NanLimit_Props.v
theories/NanLimit_Room.v
theories/NanMap_Model.v
theories/NanMap_Proofs.v
theories/NanMap_Props.v
theories/NanMap_Spec.v
theories/Net_Model.v
theories/Net_Proofs.v
theories/Net_Props.v
theories/Net_Spec.v
theories/Num_Model.v
theories/Num_Proofs.v
theories/Num_Props.v
theories/Num_Spec.v
theories/PixelGray_Proofs.v
theories/PixelToy_Proofs.v
theories/Pixel_Model.v
theories/Pixel_Proofs.v
theories/Pixel_Props.v
theories/Pixel_Spec.v
theories/Pool_Model.v
theories/Pool_Proofs.v
theories/Pool_Props.v
theories/Pool_Spec.v
theories/Prime_Check.v
theories/Prime_P.v
theories/Prime_Proofs.v
theories/Prime_Q.v
theories/ReadFile_Model.v
theories/ReadFile_Proofs.v
theories/ReadFile_Props.v
theories/ReadFile_Spec.v
theories/Resample_Blur.v
theories/Resample_Box.v
theories/Resample_Classes.v
theories/Resample_Err.v
theories/Resample_Kernels.v
theories/Resample_Lobes.v
theories/Resample_Middle.v
theories/Resample_Mix.v
theories/Resample_Model.v
theories/Resample_Place.v
theories/Resample_Proofs.v
theories/Resample_Props.v
theories/Resample_Sines.v
theories/Resample_Spec.v
theories/Resample_Steps.v
theories/Resample_Trig.v
theories/Resample_Weights.v
theories/Rotate_Geom.v
theories/Rotate_Mix.v
theories/Rotate_Model.v
theories/Rotate_Point.v
theories/Rotate_Proofs.v
theories/Rotate_Props.v
theories/Rotate_Spec.v
theories/Rsa_Default.v
theories/Rsa_Fermat.v
theories/Rsa_Model.v
theories/Rsa_Proofs.v
theories/Rsa_Props.v
theories/Rsa_Spec.v
theories/S2_Model.v
theories/S2_Proofs.v
theories/S2_Props.v
theories/S2_Spec.v
theories/Snappy_Model.v
theories/Snappy_Proofs.v
theories/Snappy_Props.v
theories/Snappy_Spec.v
theories/Thrift_Model.v
theories/Thrift_Proofs.v
theories/Time_Model.v
theories/Time_Proofs.v
theories/Time_Props.v
theories/Time_Spec.v
theories/TreeMap_Model.v
theories/TreeMap_Proofs.v
theories/TreeMap_Props.v
theories/TreeMap_Spec.v
theories/Unhash_Model.v
theories/Unhash_Proofs.v
theories/Unhash_Props.v
theories/Util_Model.v
theories/Util_Proofs.v
theories/Util_Props.v
theories/Util_Spec.v
theories/UuidNum_Model.v
theories/UuidNum_Proofs.v
theories/UuidNum_Props.v
theories/UuidNum_Spec.v
theories/Uuid_Model.v
theories/Uuid_Proofs.v
theories/Uuid_Props.v
theories/Uuid_Spec.v
theories/Ws_Model.v
theories/Ws_Proofs.v
theories/Ws_Props.v
theories/Ws_Spec.v
