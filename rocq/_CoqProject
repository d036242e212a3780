-Q theories Verif
theories/Prelude.v
theories/QLemmas.v
theories/Partitions_Model.v
theories/Partitions_Spec.v
theories/Partitions_Proofs.v
theories/Partitions_Properties.v
theories/BitFlags_Model.v
theories/BitFlags_Spec.v
theories/BitFlags_Proofs.v
theories/BitFlags_Properties.v
theories/Selectors_Model.v
theories/Selectors_Spec.v
theories/Selectors_Proofs.v
theories/Selectors_Properties.v
theories/SelectorParse_Model.v
theories/SelectorParse_Spec.v
theories/SelectorParse_Proofs.v
theories/SelectorParse_Properties.v
theories/Disaggregate_Model.v
theories/Disaggregate_Spec.v
theories/Disaggregate_Proofs.v
theories/Disaggregate_Properties.v
theories/Quantize_Model.v
theories/Quantize_Spec.v
theories/Quantize_Proofs.v
theories/Quantize_Properties.v
theories/LinkRef_Model.v
theories/LinkRef_Spec.v
theories/LinkRef_Proofs.v
theories/LinkRef_Properties.v
theories/Db_Model.v
theories/Db_Spec.v
theories/Db_Proofs.v
theories/Db_ProofsLocal.v
theories/Db_ProofsMerge.v
theories/Db_ProofsRefresh.v
theories/Db_ProofsInv.v
theories/Db_ProofsInv2.v
theories/Db_ProofsInv3.v
theories/Db_ProofsDelete.v
theories/Db_ProofsRun.v
theories/Db_ProofsOps.v
theories/Db_ProofsOps2.v
theories/Db_ProofsOps3.v
theories/Db_ProofsOps4.v
theories/Db_ProofsOps5.v
theories/Db_ProofsOps6.v
theories/Db_ProofsOps7.v
theories/Db_Properties.v
theories/Reader_Model.v
theories/Reader_Spec.v
theories/Reader_Proofs.v
theories/Reader_Proofs2.v
theories/Reader_Proofs3.v
theories/Reader_Properties.v
theories/Mapper_Model.v
theories/Mapper_Spec.v
theories/Mapper_Proofs.v
theories/Mapper_Proofs2.v
theories/Mapper_Proofs3.v
theories/Mapper_Proofs4.v
theories/Mapper_Proofs5.v
theories/Mapper_Properties.v
theories/Quantity_Model.v
theories/Quantity_Spec.v
theories/Quantity_Proofs.v
theories/Quantity_Proofs2.v
theories/Quantity_Proofs3.v
theories/Quantity_Proofs4.v
theories/Quantity_Properties.v
theories/SpaceRead_Model.v
theories/SpaceRead_Spec.v
theories/SpaceRead_Proofs.v
theories/SpaceRead_Proofs2.v
theories/SpaceRead_Proofs3.v
theories/SpaceRead_Properties.v
theories/Granularity_Model.v
theories/Granularity_Spec.v
theories/Granularity_Proofs.v
theories/Granularity_Proofs2.v
theories/Granularity_Proofs3.v
theories/Granularity_Properties.v
theories/Transaction_Model.v
theories/Transaction_Spec.v
theories/Transaction_Proofs.v
theories/Transaction_Properties.v
theories/SaveFile_Model.v
theories/SaveFile_Spec.v
theories/SaveFile_Proofs.v
theories/SaveFile_Properties.v
theories/IndexCode_Model.v
theories/IndexCode_Spec.v
theories/IndexCode_Proofs.v
theories/IndexCode_Proofs2.v
theories/IndexCode_Proofs3.v
theories/IndexCode_Properties.v
theories/SeqHash_Model.v
theories/SeqHash_Spec.v
theories/SeqHash_Proofs.v
theories/SeqHash_Properties.v
theories/Columns_Model.v
theories/Columns_Spec.v
theories/Columns_Proofs.v
theories/Columns_Proofs2.v
theories/Columns_Proofs3.v
theories/Columns_Properties.v
theories/Streams_Model.v
theories/Streams_Spec.v
theories/Streams_Proofs.v
theories/Streams_Proofs2.v
theories/Streams_Proofs3.v
theories/Streams_Proofs4.v
theories/Streams_Properties.v
theories/Reshape_Model.v
theories/Reshape_Spec.v
theories/Reshape_Proofs.v
theories/Reshape_Properties.v
theories/PartSort_Model.v
theories/PartSort_Spec.v
theories/PartSort_Proofs.v
theories/PartSort_Properties.v
theories/FormatGran_Model.v
theories/FormatGran_Spec.v
theories/FormatGran_Proofs.v
theories/FormatGran_Properties.v
theories/Elements_Model.v
theories/Elements_Spec.v
theories/Elements_Proofs.v
theories/Elements_Properties.v
theories/Migrations_Model.v
theories/Migrations_Spec.v
theories/Migrations_Proofs.v
theories/Migrations_Proofs2.v
theories/Migrations_Proofs3.v
theories/Migrations_Properties.v
theories/IndexCli_Model.v
theories/IndexCli_Spec.v
theories/IndexCli_Proofs.v
theories/IndexCli_Proofs2.v
theories/IndexCli_Proofs3.v
theories/IndexCli_Proofs4.v
theories/IndexCli_Proofs5.v
theories/IndexCli_Proofs6.v
theories/IndexCli_Proofs7.v
theories/IndexCli_Proofs8.v
theories/IndexCli_Properties.v
theories/MapStats_Model.v
theories/MapStats_Spec.v
theories/MapStats_Proofs.v
theories/MapStats_Properties.v
theories/EdgeText_Model.v
theories/EdgeText_Spec.v
theories/EdgeText_Proofs.v
theories/EdgeText_Proofs2.v
theories/EdgeText_Properties.v
theories/MapCli_Model.v
theories/MapCli_Spec.v
theories/MapCli_Proofs.v
theories/MapCli_Proofs2.v
theories/MapCli_Proofs3.v
theories/MapCli_Proofs4.v
theories/MapCli_Proofs5.v
theories/MapCli_Proofs6.v
theories/MapCli_Proofs7.v
theories/MapCli_Proofs8.v
theories/MapCli_Properties.v
theories/WeightIter_Model.v
theories/WeightIter_Spec.v
theories/WeightIter_Proofs.v
theories/WeightIter_Proofs2.v
theories/WeightIter_Proofs3.v
theories/WeightIter_Properties.v
theories/LoadMap_Model.v
theories/LoadMap_Spec.v
theories/LoadMap_Proofs.v
theories/LoadMap_Proofs2.v
theories/LoadMap_Proofs3.v
theories/LoadMap_Proofs4.v
theories/LoadMap_Proofs5.v
theories/LoadMap_Proofs6.v
theories/LoadMap_Properties.v
theories/QuantCli_Model.v
theories/QuantCli_Spec.v
theories/QuantCli_Proofs.v
theories/QuantCli_Proofs2.v
theories/QuantCli_Proofs3.v
theories/QuantCli_Proofs4.v
theories/QuantCli_Properties.v
theories/Legacy_Model.v
theories/Legacy_Spec.v
theories/Legacy_Proofs.v
theories/Legacy_Proofs2.v
theories/Legacy_Proofs3.v
theories/Legacy_Proofs4.v
theories/Legacy_Proofs5.v
theories/Legacy_Properties.v
theories/Quote_Model.v
theories/Quote_Spec.v
theories/Quote_Proofs.v
theories/Quote_Proofs2.v
theories/Quote_Proofs3.v
theories/Quote_Properties.v
theories/FileOpen_Model.v
theories/FileOpen_Spec.v
theories/FileOpen_Proofs.v
theories/FileOpen_Proofs2.v
theories/FileOpen_Proofs3.v
theories/FileOpen_Properties.v
theories/Json_Model.v
theories/Json_Spec.v
theories/Json_Proofs.v
theories/Json_Proofs2.v
theories/Json_Proofs3.v
theories/Json_Properties.v
theories/Csv_Model.v
theories/Csv_Spec.v
theories/Csv_Proofs.v
theories/Csv_Proofs2.v
theories/Csv_Properties.v
theories/AdminCli_Model.v
theories/AdminCli_Spec.v
theories/AdminCli_Proofs.v
theories/AdminCli_Proofs2.v
theories/AdminCli_Proofs3.v
theories/AdminCli_Properties.v
theories/Info_Model.v
theories/Info_Spec.v
theories/Info_Proofs.v
theories/Info_Proofs2.v
theories/Info_Proofs3.v
theories/Info_Proofs4.v
theories/Info_Properties.v
theories/StoredGran_Model.v
theories/StoredGran_Spec.v
theories/StoredGran_Proofs.v
theories/StoredGran_Proofs2.v
theories/StoredGran_Proofs3.v
theories/StoredGran_Proofs4.v
theories/StoredGran_Properties.v
theories/WGroup_Model.v
theories/WGroup_Spec.v
theories/WGroup_Proofs.v
theories/WGroup_Proofs2.v
theories/WGroup_Properties.v
theories/MapTable_Model.v
theories/MapTable_Spec.v
theories/MapTable_Proofs.v
theories/MapTable_Properties.v
theories/Report_Model.v
theories/Report_Spec.v
theories/Report_Proofs.v
theories/Report_Properties.v
theories/Loaded_Model.v
theories/Loaded_Spec.v
theories/Loaded_Proofs.v
theories/Loaded_Properties.v
theories/QTable_Model.v
theories/QTable_Spec.v
theories/QTable_Proofs.v
theories/QTable_Properties.v
