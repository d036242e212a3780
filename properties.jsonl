{"id": "C01", "title": "Structure is exactly the set of unions of the partition definitions", "statement": "The structure built from a list of partition definitions contains a set of label names if and only if that set is the union of some (possibly empty) sub-collection of the definitions; no set is listed twice; the empty set comes first; and the structure is closed under union.", "quantifier": "every finite list of partition definitions over any label names (duplicates, overlaps and the empty list included)", "why_tests_cant": "the number of sub-collections is exponential and a missed combination only shows for particular overlap patterns", "anchors": ["src/toron/partitions.py:make_structure", "src/toron/data_service.py:rebuild_structure_table"]}
{"id": "C02", "title": "Stored partition definitions are a minimal generating set", "statement": "The definitions kept after combining any collections of definitions generate by union exactly the non-empty members the inputs generate; no kept definition is a union of other kept ones; every kept definition is one of the inputs; and as a collection of sets the result does not depend on the order in which the inputs were given.", "quantifier": "every finite collection of definition lists and every permutation of them", "why_tests_cant": "minimality and order independence quantify over all permutations and all sub-collections", "anchors": ["src/toron/partitions.py:find_minimal_partition_generating_set", "src/toron/data_service.py:add_partition_definitions"]}
{"id": "C03", "title": "Partition-definition history keeps the whole space and stays irredundant", "statement": "After any sequence of successful add_partition_definition / add_partition_definitions / drop_partition_definitions calls on a space with label columns, the stored definitions are pairwise distinct and irredundant, mention only existing label columns, and their structure contains the set of all label columns; refused calls (unknown label, already covered definition, dropping the whole space) change nothing.", "quantifier": "every sequence of add/drop calls with every argument", "why_tests_cant": "an invariant over unbounded histories", "anchors": ["src/toron/data_service.py:add_partition_definition", "src/toron/data_service.py:add_partition_definitions", "src/toron/data_service.py:remove_partition_definition", "src/toron/space.py:DataSpace.drop_partition_definitions"]}
{"id": "C04", "title": "Granularity orders partitions by refinement", "statement": "For a non-empty index, granularity is a real number between 0 and log2 of the number of records; adding label columns to a definition never lowers granularity; and among nested definitions equal granularity happens only when both split the index into the same blocks. It is None exactly when there are no columns or no records.", "quantifier": "every finite index and every pair of nested column lists", "why_tests_cant": "a claim about all finite tables over the reals; tests check a few numbers to a few decimals", "anchors": ["src/toron/data_service.py:calculate_granularity", "src/toron/space.py:DataSpace._disaggregate"]}
{"id": "C05", "title": "The optimized and the plain granularity computations agree", "statement": "For every index and every list of columns the SQL-optimized granularity equals the one computed by the backend independent implementation.", "quantifier": "every index contents and column list", "why_tests_cant": "two different algorithms over all tables", "anchors": ["src/toron/dal1/optimizations.py:calculate_granularity", "src/toron/data_service.py:calculate_granularity"]}
{"id": "C06", "title": "BitFlags round trips and compares by meaning", "statement": "Building BitFlags from bits and iterating it gives back the bits followed only by zeros, its length is a multiple of eight with no all-zero final byte, bytes(BitFlags) fed back yields an equal object, two BitFlags are equal exactly when their bits agree after ignoring trailing zeros, item access agrees with iteration for every in-range positive or negative index and raises IndexError otherwise, and | is position-wise or.", "quantifier": "every finite bit sequence, byte string and integer index", "why_tests_cant": "unbounded lengths and boundary positions", "anchors": ["src/toron/_utils.py:BitFlags"]}
{"id": "C07", "title": "Selectors mean what their syntax says", "statement": "A selector built from attribute tests, :is, :not, :where and juxtaposition matches a row exactly when the corresponding boolean combination of the documented operator meanings holds of the row; a missing attribute behaves as the empty string.", "quantifier": "every selector tree and every row", "why_tests_cant": "recursive syntax of unbounded depth", "anchors": ["src/toron/selectors.py:SimpleSelector", "src/toron/selectors.py:MatchesAnySelector", "src/toron/selectors.py:NegationSelector", "src/toron/selectors.py:CompoundSelector"]}
{"id": "C08", "title": "Specificity laws", "statement": "Specificity of a compound is the element-wise sum, of :is/:not the lexicographic maximum of the members, of :where (0,0), is never lowered by adding a term to a compound and never changes when members are reordered.", "quantifier": "every selector tree", "why_tests_cant": "recursive syntax of unbounded depth", "anchors": ["src/toron/selectors.py:specificity"]}
{"id": "C09", "title": "Equal selectors are interchangeable", "statement": "If two selectors compare equal then they match the same rows; equality is an equivalence; (checked separately) equal selectors also have the same specificity.", "quantifier": "every pair of selector trees and every row", "why_tests_cant": "quantifies over pairs of trees and rows", "anchors": ["src/toron/selectors.py:_get_comparison_key"]}
{"id": "C10", "title": "Printing and re-parsing a selector gives the selector back", "statement": "parse_selector(str(s)) equals s for every selector s that parse_selector can produce.", "quantifier": "every selector tree with arbitrary attribute names and values", "why_tests_cant": "unbounded trees and arbitrary strings with quotes and backslashes", "anchors": ["src/toron/selectors.py:parse_selector", "src/toron/selectors.py:__str__"]}
{"id": "C11", "title": "Greatest unique specificity picks the right key", "statement": "get_greatest_unique_specificity returns key k exactly when some selector of k matches the row, no other key attains the same best specificity, and every higher best specificity is shared by two or more keys; otherwise it returns the default. The answer does not depend on the iteration order of the dictionary.", "quantifier": "every row and every mapping from keys to selector lists", "why_tests_cant": "quantifies over all dictionaries, orders and ties", "anchors": ["src/toron/selectors.py:get_greatest_unique_specificity", "src/toron/data_service.py:find_matching_weight_groups", "src/toron/data_service.py:make_get_link_id_func"]}
{"id": "C12", "title": "Disaggregating a value conserves it", "statement": "Whenever disaggregate_value yields results, the yielded values add up exactly to the quantity value and each requested index id appears exactly once in order; it raises only when a non-undefined id lacks a weight or the id collection is empty.", "quantifier": "every value, every non-empty collection of distinct index ids and every weight assignment (missing, zero and undefined-record cases included)", "why_tests_cant": "exact conservation over all rationals and all zero-weight/undefined combinations", "anchors": ["src/toron/data_service.py:disaggregate_value"]}
{"id": "C13", "title": "Disaggregated shares are proportional and never negative for a non-negative value", "statement": "With a positive total weight each share is value*weight/total and the undefined record gets nothing; with zero total weight the shares are equal over all ids except that the undefined record gets nothing unless it is alone; shares of a non-negative value are non-negative.", "quantifier": "every value, id collection and non-negative weight assignment", "why_tests_cant": "all combinations of zero totals and undefined records", "anchors": ["src/toron/data_service.py:disaggregate_value"]}
{"id": "C14", "title": "Quantizing preserves the total and moves every value by less than one", "statement": "For values that all have the sign of sum_total (or are zero) and add up to sum_total, quantize_values yields each index id exactly once, the results add up exactly to sum_total, all results are whole numbers except at most one, and every result differs from its input by less than 1.", "quantifier": "every finite list of items with consistent sign", "why_tests_cant": "arithmetic over all rationals and list lengths", "anchors": ["src/toron/_utils.py:quantize_values"]}
{"id": "C15", "title": "Quantizing does not depend on the input order", "statement": "For distinct 64-bit index ids, permuting the items given to quantize_values does not change the sequence of results; the tie breaker splitmix64 is a bijection on 64-bit integers.", "quantifier": "every list of items and each of its permutations; all 2^64 ids", "why_tests_cant": "2^64 inputs and n! orders", "anchors": ["src/toron/_utils.py:quantize_values", "src/toron/_utils.py:splitmix64"]}
{"id": "C16", "title": "Calling a space conserves every quantity that matches", "statement": "Reading disaggregated data from a space (space()) yields, for each attribute group, values whose total equals the total of the stored quantities of that group located at a structured level that matches at least one index record; every record belongs to an index record matching the location labels of its quantity.", "quantifier": "every index, structure, weight, location and quantity table", "why_tests_cant": "a whole-database conservation law", "anchors": ["src/toron/space.py:DataSpace._disaggregate", "src/toron/space.py:DataSpace.__call__"]}
{"id": "C17", "title": "Refreshing proportions makes them a probability distribution", "statement": "After proportions are refreshed for a link and a source record other than the undefined one, the proportions of its mappings are value divided by the total (equal shares when the total is zero), lie between 0 and 1 and add up to exactly 1; all other mappings keep everything; values are unchanged.", "quantifier": "every mapping table with non-negative values and every link and source id", "why_tests_cant": "zero totals, ties and unbounded numbers of mappings", "anchors": ["src/toron/data_models.py:BaseMappingRepository.refresh_proportions"]}
{"id": "C18", "title": "Translating across a complete link conserves totals", "statement": "Translating quantities through a link conserves the total per attribute set provided each source record has mappings whose proportions sum to 1; quantities on the undefined record stay on the undefined record; without mappings the quantity is dropped.", "quantifier": "every quantity table, mapping table and choice of link per attribute set", "why_tests_cant": "a conservation law over all tables", "anchors": ["src/toron/reader.py:NodeReader.translate", "src/toron/graph.py:_translate"]}
{"id": "C19", "title": "Reader output is the grouped total of its input", "statement": "A reader yields one record per (index labels, attributes) pair present in its input and the value is the exact sum of the inputs of that pair; the grand total is preserved and attribute dictionaries that differ only in key order are the same attributes.", "quantifier": "every finite stream of index id, attributes and value", "why_tests_cant": "unbounded streams", "anchors": ["src/toron/reader.py:NodeReader.__init__", "src/toron/reader.py:NodeReader._generate_reader_output", "src/toron/_utils.py:XQuantityIterator", "src/toron/data_models.py:QuantityIterator"]}
{"id": "C20", "title": "Pivoting loses no value", "statement": "For pivot attributes the sum of the cells of the pivoted table equals the sum of values of the records that have at least one of the pivot attributes, and each cell is the sum of exactly the records with that row label and those attribute values.", "quantifier": "every reader contents and list of pivot attributes", "why_tests_cant": "unbounded streams", "anchors": ["src/toron/reader.py:pivot_reader"]}
{"id": "C21", "title": "Record matching respects labels, limits and granularity order", "statement": "Every (row, index record) pair recorded by match_records agrees with the row: the record is the one named by the explicit id or its labels equal all non-empty labels of the row; no label row is matched to more than match_limit records; and without allow_overlapping an ambiguous row never takes a record already matched at another level.", "quantifier": "every mapping data, index, weight table, limit and overlap flag", "why_tests_cant": "an invariant over the whole matching loop", "anchors": ["src/toron/mapper.py:Mapper.match_records"]}
{"id": "C22", "title": "Mapping proportions conserve each source row value", "statement": "For every source row matched on both sides, the values spread over its pairs of records add up to the row value except for the undefined-to-undefined pair; summed over rows the produced mappings carry exactly the total of the fully matched rows; both directions (target node1 or node2) carry the same values with sides swapped.", "quantifier": "every pair of match tables and mapping values", "why_tests_cant": "cartesian products of unbounded size", "anchors": ["src/toron/mapper.py:Mapper._refresh_proportions", "src/toron/mapper.py:Mapper.iter_mappings"]}
{"id": "C23", "title": "Operations are all-or-nothing", "statement": "A public operation run inside the managed transaction either completes and all its writes become visible together or raises an exception and leaves the stored data exactly as before; an exception at any point in the body never leaves a transaction open.", "quantifier": "every operation body (any list of writes), every point of failure including failure of commit itself", "why_tests_cant": "quantifies over all crash points", "anchors": ["src/toron/space.py:DataSpace._managed_transaction"]}
{"id": "C24", "title": "Saving a file is atomic with respect to the destination", "statement": "At every point of to_file at which an error or crash can happen the destination holds either its complete previous contents or the complete new contents; when to_file returns normally it holds the new contents and no temporary file is left; when it raises before the replacement the destination is unchanged and the temporary file is removed.", "quantifier": "every failure point of the save procedure and every prior state of the destination", "why_tests_cant": "crash points cannot be enumerated by unit tests", "anchors": ["src/toron/dal1/data_connector.py:DataConnector.save_to_file"]}
{"id": "C25", "title": "Index ids are never reused", "statement": "In any history of insert_index, update_index, delete_index and label operations an index id that once denoted a record is never assigned to a new record after deletion.", "quantifier": "every history of operations", "why_tests_cant": "unbounded histories", "anchors": ["src/toron/dal1/schema.py:create_schema_tables", "src/toron/dal1/repositories.py:IndexRepository.add", "src/toron/space.py:DataSpace.insert_index"]}
{"id": "C26", "title": "Index labels identify records", "statement": "At every moment no two index records have the same labels, no label is empty, and the undefined record (id 0) exists and is unchanged.", "quantifier": "every history of index operations", "why_tests_cant": "unbounded histories", "anchors": ["src/toron/dal1/schema.py:create_schema_constraints", "src/toron/space.py:DataSpace.insert_index", "src/toron/space.py:DataSpace.update_index", "src/toron/space.py:DataSpace.delete_index"]}
{"id": "C27", "title": "The index hash property follows the set of index ids", "statement": "After every successful operation the stored index hash is the hash of the current ascending list of index ids, so that two spaces have the same stored hash (up to hash collisions) exactly when they have the same ids.", "quantifier": "every history of index operations", "why_tests_cant": "unbounded histories; a missed refresh only shows on particular paths", "anchors": ["src/toron/data_service.py:refresh_index_hash_property", "src/toron/space.py:DataSpace.insert_index", "src/toron/space.py:DataSpace.delete_index", "src/toron/space.py:DataSpace.update_index"]}
{"id": "C28", "title": "Weights stay well formed", "statement": "At every moment each weight is non-negative, belongs to a record other than the undefined one, and there is at most one weight per group and record. As long as the space is used through the connection that created it, each weight also belongs to an existing weight group and an existing index record (in a space stored and opened again this fails, see the finding).", "quantifier": "every history of weight and index operations", "why_tests_cant": "unbounded histories", "anchors": ["src/toron/dal1/repositories.py:WeightRepository", "src/toron/space.py:DataSpace.insert_weights"]}
{"id": "C29", "title": "The completeness flag of a weight group is truthful", "statement": "After every operation that does not set the flag by hand, a weight group marked complete has a weight for every defined index record; and, as long as the space is used through the connection that created it and has a defined record, a group with a weight for every defined record is marked complete.", "quantifier": "every history of weight and index operations", "why_tests_cant": "each operation must maintain the flag along every path", "anchors": ["src/toron/space.py:DataSpace.insert_index", "src/toron/space.py:DataSpace.insert_weights", "src/toron/space.py:DataSpace.delete_weights", "src/toron/space.py:DataSpace.delete_index", "src/toron/space.py:DataSpace.update_index", "src/toron/dal1/repositories.py:WeightRepository.weight_group_is_complete"]}
{"id": "C30", "title": "At most one default link per other space", "statement": "After any sequence of add_link / edit_link / drop_link calls no other space has two default links, the first link added for a space is its default when the caller expressed no choice, link names are unique per other space, and failed calls change nothing.", "quantifier": "every history of link operations", "why_tests_cant": "unbounded histories", "anchors": ["src/toron/space.py:DataSpace.add_link", "src/toron/space.py:DataSpace.edit_link", "src/toron/space.py:DataSpace.drop_link", "src/toron/dal1/schema.py:create_schema_tables"]}
{"id": "C31", "title": "Mappings stay well formed", "statement": "At every moment each mapping has a non-negative value, a proportion in [0,1] or none, does not map undefined to undefined, and there is at most one per link, source record, target record and level. As long as the space is used through the connection that created it, each mapping also belongs to an existing link and index record (in a space stored and opened again this fails, see the finding).", "quantifier": "every history of mapping, link and index operations", "why_tests_cant": "unbounded histories", "anchors": ["src/toron/dal1/schema.py:create_schema_tables", "src/toron/space.py:DataSpace.insert_mappings2", "src/toron/space.py:DataSpace.update_mappings", "src/toron/space.py:DataSpace.delete_mappings"]}
{"id": "C32", "title": "Merging index records conserves weights and mapping values", "statement": "update_index with merge_on_conflict replaces the records sharing the new labels by one record whose weight in every group and whose mapping value for every link, source record and level is the sum over the merged records; everything about other records is unchanged.", "quantifier": "every weight table, mapping table and set of merged ids", "why_tests_cant": "unbounded tables", "anchors": ["src/toron/data_models.py:BaseWeightRepository.merge_by_index_id", "src/toron/data_models.py:BaseMappingRepository.merge_by_index_id", "src/toron/space.py:DataSpace.update_index"]}
{"id": "C33", "title": "Deleting an index record removes exactly that record and its dependants", "statement": "delete_index removes exactly the chosen records, their weights and their mappings, renormalizes the proportions of the sources they were mapped from, leaves every other record, weight, mapping, group and link unchanged, and refuses (changing nothing) exactly when one of the mappings is ambiguous or the undefined record is chosen.", "quantifier": "every database state and every index id", "why_tests_cant": "frame conditions over all states", "anchors": ["src/toron/data_service.py:delete_index_record", "src/toron/space.py:DataSpace.delete_index"]}
{"id": "C34", "title": "Conflict policies of quantity insertion", "statement": "Inserting quantities with on_existing ignore keeps the old value, replace stores the new one, sum stores the exact sum, abort refuses; in all cases there is at most one quantity per location and attribute group and all other quantities are unchanged; with sum the grand total grows by exactly the accepted values regardless of row order.", "quantifier": "every table state and row list", "why_tests_cant": "unbounded row lists", "anchors": ["src/toron/space.py:DataSpace.insert_quantities2"]}
{"id": "C35", "title": "Conflict policies of weight insertion", "statement": "add_or_resolve: a new pair is inserted; an existing pair is kept (ignore), overwritten (replace), summed (sum) or refused (abort); negative weights and weights for the undefined record are always refused, and no other weight changes.", "quantifier": "every weight table, policy and value", "why_tests_cant": "all policies against all states", "anchors": ["src/toron/data_models.py:BaseWeightRepository.add_or_resolve", "src/toron/space.py:DataSpace.insert_weights"]}
{"id": "C36", "title": "Unmatched locations are exactly the ones not covered", "statement": "A location is reported as non-matching exactly when its label pattern is not in the structure or no index record agrees with its non-empty labels; the three counts partition the non-matching locations; quantities that are deleted as unmatched are exactly those selected as unmatched.", "quantifier": "every location, structure and index table", "why_tests_cant": "a biconditional over all tables", "anchors": ["src/toron/data_service.py:find_nonmatching_locations", "src/toron/data_service.py:count_nonmatching_locations", "src/toron/space.py:DataSpace.delete_unmatched_quantities"]}
{"id": "C37", "title": "Wide-to-long reshaping is lossless", "statement": "wide_to_long yields for each input row one output row per stacked column, in order, whose kept columns equal the input and whose value is the input cell; the wide table can be reconstructed from the long one.", "quantifier": "every header, row list and choice of distinct stacked columns", "why_tests_cant": "unbounded tables, short and long rows", "anchors": ["src/toron/_utils.py:wide_to_long", "src/toron/_utils.py:wide_to_narrow"]}
{"id": "C38", "title": "Index codes round trip and detect single-space typos", "statement": "Decoding the code of an index id with the same space gives back the id; a string is accepted only if it is the code of an id; codes whose id was altered within 32 bits of the big-endian field never verify.", "quantifier": "every signed 64-bit index id and every space identifier", "why_tests_cant": "2^64 ids and arbitrary corruptions", "anchors": ["src/toron/cli/common.py:index_id_to_code", "src/toron/cli/common.py:index_code_to_id", "src/toron/cli/common.py:is_index_code"]}
{"id": "C39", "title": "Reordering labels and attributes is a permutation", "statement": "change_element_order returns a permutation of its input that keeps the relative order of all other elements and puts the element at the requested offset clamped to the ends; the displayed label list contains every stored label.", "quantifier": "every sequence, element and offset", "why_tests_cant": "boundaries over all lengths and offsets", "anchors": ["src/toron/data_service.py:change_element_order", "src/toron/data_service.py:get_labels_in_display_order", "src/toron/data_service.py:set_labels_in_display_order"]}
{"id": "C40", "title": "The index hash input is an injective encoding", "statement": "SequenceHash accepts exactly the strictly increasing sequences of integers in [0, 2^64) and feeds distinct accepted sequences to the hash as distinct byte strings.", "quantifier": "every sequence of integers", "why_tests_cant": "unbounded sequences", "anchors": ["src/toron/_utils.py:SequenceHash"]}
{"id": "C41", "title": "Link references resolve without guessing", "statement": "get_link returns a link only when the reference determines one other space; exact ids win over file names, file names over id prefixes; prefixes shorter than seven characters never match; with a name it returns the link of that name; without a name and several candidates it returns the default one; in every other case it raises.", "quantifier": "every link table, reference and name", "why_tests_cant": "all tables with clashes", "anchors": ["src/toron/data_service.py:get_links_by_ref", "src/toron/data_service.py:get_link"]}
{"id": "C42", "title": "Upgrading old files conserves quantities", "statement": "Migrating a 0.2.0 file to 0.3.0 keeps the total of the quantities of each location and attribute group, leaves one row per pair, and drops exactly the undefined-to-undefined mappings.", "quantifier": "every contents of the old tables, including duplicates, missing references and texts among the quantities", "why_tests_cant": "The old tables allowed duplicates, NULL references and values of any type, in any combination; the tests upgrade one small file.", "anchors": ["src/toron/dal1/migrations.py:v020_to_v030_step02_relation_table", "src/toron/dal1/migrations.py:v020_to_v030_step03_quantity_table", "src/toron/dal1/migrations.py:apply_migrations"]}
{"id": "C43", "title": "Label and attribute names stay apart", "statement": "After any sequence of adding label columns, renaming them and registering attributes, no name is both a label column and a registered attribute, none is reserved, and neither list has duplicates.", "quantifier": "every history of these operations", "why_tests_cant": "unbounded histories", "anchors": ["src/toron/data_service.py:validate_new_index_columns", "src/toron/data_service.py:set_registered_attributes", "src/toron/space.py:DataSpace.add_index_columns", "src/toron/space.py:DataSpace.rename_index_columns"]}
{"id": "C44", "title": "Partition definitions are displayed completely and in order", "statement": "sort_partition_definitions lists the whole space first and every definition exactly as often as given, each with its labels in label order, ordered by descending membership; it raises exactly when a definition mentions an unknown label.", "quantifier": "every list of definitions and label order", "why_tests_cant": "unbounded inputs", "anchors": ["src/toron/formatters.py:sort_partition_definitions"]}
{"id": "C45", "title": "Exported mappings cover both sides", "statement": "The elements exported for a link contain undefined-to-undefined, every mapping of the link exactly once, every unmapped target record when the link is locally incomplete, and every unmapped source record when the source changed; no record is reported unmatched while it has a mapping.", "quantifier": "every database state", "why_tests_cant": "coverage over all states", "anchors": ["src/toron/data_service.py:generate_mapping_elements"]}
{"id": "C46", "title": "Displayed granularities stay distinct", "statement": "format_granularity gives different texts to different values and the same text to equal values, all texts have the same width, or it raises.", "quantifier": "every list of granularity values", "why_tests_cant": "all decimal roundings", "anchors": ["src/toron/formatters.py:format_granularity"]}
{"id": "C47", "title": "Column detection never loses rows", "statement": "Scanning for index-code columns or other header-dependent look-ahead yields every data row exactly once and in order whatever number of rows is inspected.", "quantifier": "every stream length relative to the look-ahead limits", "why_tests_cant": "boundary of the chunked look-ahead", "anchors": ["src/toron/cli/command_mapping.py:get_column_positions", "src/toron/_utils.py:normalize_tabular", "src/toron/_utils.py:make_readerlike", "src/toron/_utils.py:eagerly_initialize"]}
{"id": "C48", "title": "Deleting weights or mappings keeps flags and proportions right", "statement": "Deleting weights clears the completeness flag of the group if anything was deleted; deleting mappings of a source record leaves the remaining mappings of that record summing to 1 and clears local completeness exactly when a target record lost its last mapping.", "quantifier": "every state and every row list", "why_tests_cant": "each path of the loops must maintain the flags", "anchors": ["src/toron/space.py:DataSpace.delete_weights", "src/toron/space.py:DataSpace.delete_mappings"]}
{"id": "C49", "title": "New weight groups and links start empty", "statement": "A weight group or link that is added gets an id no existing group or link has and has no weights or mappings, whatever groups or links were dropped before, as long as the space is used through the connection that created it.", "quantifier": "every history of operations", "why_tests_cant": "depends on ids being reassigned after arbitrary earlier drops and on cascading deletion in every prior state", "anchors": ["src/toron/space.py: add_weight_group, drop_weight_group, add_link, drop_link", "src/toron/dal1/schema.py: create_node_schema (PRAGMA foreign_keys, ON DELETE CASCADE)", "src/toron/dal1/data_connector.py: acquire_connection"]}
{"id": "C50", "title": "Link completeness, recorded source ids and proportions are truthful", "statement": "After every operation that does not set them by hand, a link marked locally complete has a mapping for every defined record and (used through the connection that created it) vice versa; its recorded other-index hash is that of the ascending list of 0 and the source ids it maps; and the proportions of the mappings of every positive source id of every link exist and sum to exactly 1, those of source 0 are 0.", "quantifier": "every history of operations on index, weights, links and mappings", "why_tests_cant": "the flags and proportions are maintained incrementally by ten different operations; a unit test covers single transitions only", "anchors": ["src/toron/space.py: insert_index, update_index, delete_index, insert_mappings, insert_mappings2, update_mappings, delete_mappings, reify_mappings", "src/toron/dal1/repositories.py: MappingRepository.refresh_proportions, mapping_is_complete", "src/toron/data_service.py: delete_index_record"]}
{"id": "C51", "title": "Exported quantities can be imported again without loss", "statement": "Writing out all quantities of a space whose attributes are all registered and inserting the written rows into a space without quantities that has the same domain, registered attributes and label columns succeeds under every conflict policy and stores exactly the same value for every tuple of labels and attribute dictionary, and no others.", "quantifier": "every well-formed store, target store and policy", "why_tests_cant": "a round trip over all table states", "anchors": ["src/toron/space.py:DataSpace.select_quantities2", "src/toron/space.py:DataSpace.insert_quantities2"]}
{"id": "C52", "title": "Structure follows the columns", "statement": "After any sequence of adding label columns, renaming them, adding and dropping partition definitions, registering and reordering, the partition definitions mention only existing label columns, none is the union of others, the whole space is among their unions, and the structure table has exactly one row for each union of definitions. Adding columns keeps every partition except an unused old whole space; renaming carries every partition over to the new names.", "quantifier": "all histories of public calls other than dropping label columns, including calls that fail", "why_tests_cant": "Definitions, columns and structure rows are stored in three places and updated by separate steps of each call; tests check single calls from a few starting points, not that the three agree after every history.", "anchors": ["src/toron/space.py:add_index_columns", "src/toron/space.py:rename_index_columns", "src/toron/space.py:rename_label_column", "src/toron/space.py:drop_index_columns", "src/toron/data_service.py:rebuild_structure_table", "src/toron/data_service.py:rename_partition_definitions", "src/toron/dal1/label_manager.py:LabelManager"]}
{"id": "C53", "title": "The ambiguous-fields text names exactly the columns outside the mapping's level", "statement": "In an exported mapping, the ambiguous-fields text of a row lists, in column order and separated by a comma and a space, exactly the target columns that do not belong to the level of the mapping; it is empty for mappings at the level of the whole space and for rows without a level.", "quantifier": "all byte strings as levels and all lists of column names", "why_tests_cant": "Levels are stored without trailing zero bytes, so the text is built from a bit sequence whose length has nothing to do with the number of columns; tests use two or three columns, where the difference never shows.", "anchors": ["src/toron/cli/command_mapping.py:get_ambiguous_field_text", "src/toron/graph.py:_get_ambiguous_fields", "src/toron/_utils.py:BitFlags"]}
{"id": "C54", "title": "Upgrading a file is all or nothing, happens once and keeps everything else", "statement": "Opening an old file either upgrades it completely or fails and leaves it as it was; read-only files and open transactions are never changed; a second opening changes nothing; records, locations, structure, weights, attribute groups and links are kept; afterwards all references lead to rows, the registered attributes are exactly the attribute names in use, partition definitions and all unrelated properties carry over, and different domains keep different names.", "quantifier": "every file contents, version, access mode and transaction state", "why_tests_cant": "A failure may come from any step or constraint, after earlier steps have already rewritten tables; tests upgrade one good file per version.", "anchors": ["src/toron/dal1/migrations.py:apply_migrations", "src/toron/dal1/migrations.py:v020_to_v030_step05_properties", "src/toron/dal1/migrations.py:v030_to_v031_step01_properties", "src/toron/dal1/schema.py:verify_foreign_key_check", "src/toron/dal1/schema.py:create_schema_constraints"]}
{"id": "C55", "title": "An exported index can be loaded again without loss", "statement": "The index written to a CSV file names the label columns and the weight groups (the default group first, the others by name) and has one row with code, labels and weights for each record. Loading rows of it into the same space changes nothing; loading the rows of the defined records into another space with the same label columns adds exactly the missing records and their weights in the groups both spaces have, changes nothing else, and conflicting weights are decided by the policy, a strict policy refusing the whole table. The complete table, however, is refused by any space that has one of its weight groups, because the row of the undefined record has weights.", "quantifier": "all histories of both spaces, all domains, identifiers, policies, and all selections and orders of the rows", "why_tests_cant": "Whether a table is accepted depends on the codes, the column names, existing records and weights of both spaces and the order of the rows together; the tests export and import separately, with tables written by hand, so that the round trip is never exercised.", "anchors": ["src/toron/cli/command_index.py:write_to_stdout", "src/toron/cli/command_index.py:read_from_stdin", "src/toron/space.py:insert_index", "src/toron/cli/common.py:remap_index_codes_to_index_ids"]}
{"id": "C56", "title": "The report on a loaded mapping counts truly", "statement": "The statistics reported for a link give the true numbers of records of the source, of source records with and without a mapping and of mapped source ids that do not exist there, and of target records with and without a mapping, the two undefined records counting as matched; the log names exactly the numbers that are not zero, and says that the mapping matches both sides exactly if every defined record of both spaces is mapped and every mapped source exists. A link of another space is refused. This fails for target records in spaces that were stored and opened again, and for mappings with negative source ids.", "quantifier": "all histories of both spaces, all links and names", "why_tests_cant": "If hashes agree, the numbers are not counted but inferred, which is right only if the hash of the link was always maintained; the number of missing records is a difference of counts, which is right only if every mapping leads to a record. Both depend on everything that happened to the spaces before.", "anchors": ["src/toron/graph.py:_get_mapping_stats", "src/toron/graph.py:_log_load_mapping_stats", "src/toron/dal1/repositories.py:MappingRepository.get_index_id_cardinality", "src/toron/dal1/repositories.py:MappingRepository.find_distinct_other_index_ids", "src/toron/dal1/repositories.py:IndexRepository.get_cardinality"]}
{"id": "C57", "title": "The shorthand for an edge is read as it is written", "statement": "Reading a text of the form 'name: file1 direction file2', with an optional ': [selector]' and any white space between the parts, gives exactly these parts; whatever is read stands in the text in this order, and only texts that are no such description are rejected. The value column of mapping data is the first column whose header is the link's name or describes an edge of that name. Names consisting of white space only are accepted, though.", "quantifier": "all texts, all names without reserved characters, all amounts and kinds of white space, all headers", "why_tests_cant": "A regular expression with six optional runs of white space, lazy names that may contain spaces and dashes, and prefixes among the directions has many ways to match; tests check a handful of strings, not that no other reading is ever preferred.", "anchors": ["src/toron/_utils.py:parse_edge_shorthand", "src/toron/mapper.py:get_mapping_value_position"]}
{"id": "C58", "title": "Mappings loaded from a CSV table are the mappings of the table", "statement": "Loading mappings from standard input changes only the files that have the named link in the requested direction, refuses when there is none, and loads exactly the mappings that the rows of the table make: for rows with index codes, the sum of the values of the rows for each pair of records, at the level of all columns; for other rows, the shares of the records that the labels refer to. Values count as the decimal number in front of the text. A failed load changes no file, except that FILE2 keeps its mappings when loading FILE1 fails. Without the option for incomplete mappings, every record of both files is referred to by some row. Loading the table that was exported for a link into a file with the same records and no mappings succeeds and restores the mappings of the level of all columns, exactly. The report says whether the link is complete afterwards.", "quantifier": "all pairs of files produced by any history of operations, all tables, all options and directions", "why_tests_cant": "Column detection, code parsing, number parsing, matching, weighting and transactional loading interact; tests run a few small CSV files, and cannot show that every exported table is read back without loss, or what happens to all malformed ones.", "anchors": ["src/toron/cli/command_mapping.py:read_from_stdin", "src/toron/cli/command_mapping.py:write_to_stdout", "src/toron/mapper.py:Mapper", "src/toron/space.py:insert_mappings2"]}
{"id": "C59", "title": "Weights carried along a route of spaces are conserved", "statement": "Selecting weights yields one tuple for every defined record that satisfies the criteria, with its weight or None. Translating them with >> replaces each tuple with a value by the shares that the mappings of the chosen link give to the records of the next space, and fails if the default link is missing, incomplete or out of date. If all links that can be chosen are up to date, the sum over any route of spaces is the sum of the stored weights, except for what landed on the undefined record at an earlier stop; a reader with the same quantities gets the same amounts. The table of weights has a row for every record and a column for every group asked for, and an unknown group is an error. Links chosen by a selector may be out of date, and then values are lost silently.", "quantifier": "all histories of all spaces on the route, all routes, groups, criteria and selectors", "why_tests_cant": "Tests translate three rows through one link; conservation depends on invariants of all operations that maintain the proportions and the hashes, and a route can have any length.", "anchors": ["src/toron/graph.py:_translate", "src/toron/graph.py:translate", "src/toron/graph.py:get_weights", "src/toron/data_models.py:QuantityIterator", "src/toron/space.py:DataSpace.select_weights"]}
{"id": "C60", "title": "Loading a table between two spaces adds links whose mappings divide each row's value over the matching records", "statement": "A table with columns of a left space, a value column named like the link (or by the shorthand) and columns of a right space is loaded by load_mapping. Cells of a column named domain must repeat the domain of the space, otherwise nothing is loaded. On each side a row matches the records that have all labels the row gives, provided the labels fill just the columns of a category of the space, not more records fit than the limit, and several records all have weights; without overlaps, a record matched by a row of a finer category is left out of a coarser row that fits several records. Labels in unknown columns match nothing; the order of the columns does not matter. The matched records of a row share its value by their weights (equally if these are zero), and the shares add up to one. The target gets one new link with exactly the mappings whose values are the sums of these products; loading in both directions carries the same amounts; other links, records and weights stay. If loading fails, each space is unchanged, or has the new link without mappings, or was loaded completely; a usable table with values that are not negative, a default weight group and a new link name loads.", "quantifier": "all tables, link names, directions, limits and both overlap settings, all histories of both spaces", "why_tests_cant": "The tests load small fixed tables; whether the matches, the order of the categories, the shares and the stored mappings agree depends on every combination of rows, categories and weights.", "anchors": ["src/toron/graph.py:load_mapping", "src/toron/graph.py:normalize_mapping_data", "src/toron/mapper.py:Mapper_OLD", "src/toron/mapper.py:get_mapping_value_position"]}
{"id": "C61", "title": "Quantities loaded from a table are exactly what its rows say, and a written table is loaded again without loss", "statement": "Loading a CSV table of quantities with the quantity command (insert_quantities2) identifies labels, registered attributes and the value by the names of the columns, in any order and among other columns. If it succeeds, at every combination of labels and attributes the stored value is what the chosen on-existing policy makes of the old value and of the numbers of the rows about it, in row order, and nothing else changes; the log gives the true numbers of rows without attributes, without a partition, with labels not in the index, of existing quantities and of new ones. With numbers as values it succeeds exactly if attributes are registered, the needed columns are there, every row reaches its cells and fits the domain, the partitions and the index as far as required, and nothing existing is met under 'abort'. If it fails, nothing changes, and an exception other than the shown message occurs only for missing registered attributes, short rows or values that are no numbers. Writing gives each quantity exactly once, and the written file loaded into any space with the same label names (in any order), attributes and domain stores at every place what the policy makes of both values.", "quantifier": "For every history of operations on the space (and on the second space), every table, value column, policy and combination of the allow options; for the round trip, every way of printing that SQLite reads back as the same number.", "why_tests_cant": "Tests load a few fixed tables with fixed column orders; the claim is about every table (repeated columns, short rows, several rows about one place), every earlier history and both directions of the command.", "anchors": ["src/toron/cli/command_quantity.py:read_from_stdin", "src/toron/cli/command_quantity.py:write_to_stdout", "src/toron/space.py:DataSpace.insert_quantities2", "src/toron/space.py:DataSpace.select_quantities2", "src/toron/_utils.py:verify_columns_set", "src/toron/_utils.py:normalize_tabular"]}
{"id": "C62", "title": "Renaming and removing label columns for old versions of SQLite keeps every row, reference and id", "statement": "legacy_rename_labels and legacy_drop_labels make the three tables with label columns anew. A renaming that succeeds gives exactly the same rows under the new names, in the same order, renames the columns in the categories, and changes no other table, reference or property; removing takes out exactly the given columns and their cells. Renaming succeeds exactly if no transaction is open, there are columns, every reference is sound, no name is reserved, already a column or a registered attribute, and the new names differ (without regard to case); removing succeeds exactly if no name is reserved, a column remains and no two records, locations or partitions become alike. A call that fails changes nothing, and foreign keys are enforced again after every call. Whatever the functions for newer versions of SQLite do to columns, categories and structure, these do as well. After either call the next record gets an id one larger than the largest one present, which is the id it would have got otherwise if the record with the last id was not deleted.", "quantifier": "all states of a space with any columns, rows and references of other tables, all dictionaries of names and all lists of columns", "why_tests_cant": "The tests rename and remove columns of one small space; that no combination of names, rows, references and errors loses a row or leaves a table half made needs all of them.", "anchors": ["src/toron/dal1/label_manager.py:legacy_rename_labels", "src/toron/dal1/label_manager.py:legacy_drop_labels", "src/toron/dal1/schema.py:verify_foreign_key_check", "src/toron/dal1/schema.py:create_schema_constraints"]}
{"id": "C63", "title": "Names of columns reach the database as they are, and label criteria find exactly the matching records", "statement": "Any name without NUL and surrogates can be used as a label column, whatever quotes, semicolons or comment marks it contains; other names are refused before any statement is executed. In every statement built from names of columns (adding, renaming and removing columns, making tables anew, unique indexes, distinct labels, searching records, locations and quantities, updating the structure, granularity) SQLite reads exactly the intended tokens, with each name as one name token, so a name can never change a statement. Searching records or locations by labels (select_index and others) returns exactly the rows that have the given labels, in their order, where names of columns may differ in the case of ASCII letters; searching by a partition returns exactly the locations whose labels are filled in the columns of the partition and empty in the others.", "quantifier": "all texts as names, all lists of columns, all criteria and tables", "why_tests_cant": "Tests use a few names with a quote or a space; that no text whatsoever breaks out of its quotes needs an argument about SQLite's tokenizer for all texts.", "anchors": ["src/toron/dal1/schema.py:format_identifier", "src/toron/dal1/schema.py:column_def_label_index", "src/toron/dal1/schema.py:create_schema_constraints", "src/toron/dal1/label_manager.py:LabelManager.add_columns", "src/toron/dal1/label_manager.py:LabelManager.rename_columns", "src/toron/dal1/label_manager.py:LabelManager.drop_columns", "src/toron/dal1/repositories.py:IndexRepository.filter_by_label", "src/toron/dal1/repositories.py:LocationRepository.find_by_structure", "src/toron/dal1/optimizations.py:calculate_granularity", "src/toron/space.py:DataSpace.select_index"]}
{"id": "C64", "title": "Files are opened by their own names, in the requested mode, and stay untouched otherwise", "statement": "bind_file and read_file work on exactly the file that the given path names, for every Unicode path whatever characters it contains, also after the working directory changes. Binding an existing path succeeds exactly for readable Toron files (writable ones in the modes 'rw' and 'rwc') that are up to date or can be brought up to date; a missing file is made only in mode 'rwc', in an existing writable directory, as one empty node that can be bound again. In mode 'ro' no file ever changes, reading into memory changes no file, and a failed call changes none. Other files are refused by their header. The backup option leaves a copy of each node beside its file, unless a backup has the name of another node's file.", "quantifier": "all paths, working directories, file systems without symbolic links, file contents, modes, and sequences of queries and changes", "why_tests_cant": "Tests open a few temporary files with plain names; that quoting, SQLite's decoding of URIs, the normalisation of paths and the kernel agree for all names, and that no sequence of operations writes a read-only file, is a universal claim.", "anchors": ["src/toron/dal1/data_connector.py:make_sqlite_uri_filepath", "src/toron/dal1/data_connector.py:get_sqlite_connection", "src/toron/dal1/data_connector.py:DataConnector.bind_file", "src/toron/dal1/data_connector.py:DataConnector.read_from_file", "src/toron/dal1/data_connector.py:DataConnector.acquire_connection", "src/toron/data_access.py:get_backend_from_path", "src/toron/space.py:bind_file", "src/toron/space.py:read_file", "src/toron/cli/common.py:cli_bind_file", "src/toron/cli/common.py:process_backup_option"]}
{"id": "C65", "title": "Attributes, selectors and properties are stored as JSON faithfully and compared as dicts", "statement": "Every value that json.dumps writes into a column is printable ASCII, passes the column's trigger and is read back equal; NaN and infinities are refused exactly where SQLite has its JSON functions. The triggers accept exactly the JSON texts of the right shape: a list of strings for selectors, an object with string values for attributes, an object for user properties, any JSON value for properties; what the JSON functions accept, the Python replacement accepts. Attribute groups are unique as dicts whatever the order of their names: adding equal attributes again fails, get_by_value and get_or_add find the one record with equal attributes, update and delete touch only the named record. find_by_criteria returns exactly the records having all given attributes, and the attribute names are exactly those in use, sorted. A property is returned as last written, other keys are untouched. The SQL function that keeps part of an object keeps exactly the named members.", "quantifier": "all texts, all JSON-serializable values without a split surrogate pair, all sequences of repository operations, with and without SQLite's JSON functions", "why_tests_cant": "Tests store a few dicts; that the writer, Python's reader, SQLite's reader and the UNIQUE constraint agree on every value, every name and every order is a universal claim about two grammars.", "anchors": ["src/toron/dal1/schema.py:create_triggers_selectors", "src/toron/dal1/schema.py:create_triggers_attributes", "src/toron/dal1/schema.py:create_triggers_user_properties", "src/toron/dal1/schema.py:create_triggers_property_value", "src/toron/dal1/schema.py:create_toron_json_object_keep", "src/toron/dal1/repositories.py:AttributeGroupRepository", "src/toron/dal1/repositories.py:PropertyRepository", "src/toron/dal1/repositories.py:WeightGroupRepository.add", "src/toron/dal1/repositories.py:LinkRepository.add", "src/toron/data_models.py:BaseAttributeGroupRepository.find_by_criteria"]}
{"id": "C66", "title": "Tables sent through stdout and stdin arrive unchanged, and lists of names given as arguments mean what they say", "statement": "A table that a command writes to stdout is an RFC 4180 file in UTF-8, and reading it from stdin gives the same rows and cells whenever no cell contains a carriage return; different tables are written differently; writing fails exactly when a cell contains a surrogate. Every RFC 4180 file with line ends of any system, blank lines, quoted line ends and with or without a last line end is read as the table it describes; other text shorter than the field limit is read without error. UTF-8 bytes and text determine each other. Names given as arguments are taken in order, are never empty, padded or broken over lines; a line in CSV format with padding gives exactly its non-empty names, names written as CSV cells come back, a line end between words counts as a space and elsewhere not at all.", "quantifier": "all tables and texts over all Unicode characters, all field size limits, versions of the csv module that accept NUL or quote CR and those that do not, all argument lists", "why_tests_cant": "Tests pipe a few small files; that quoting and parsing are inverse for every combination of quotes, commas, line ends, empty cells and encodings is a universal claim about an automaton and a grammar.", "anchors": ["src/toron/cli/common.py:csv_stdout_writer", "src/toron/cli/common.py:normalize_arg_list", "src/toron/cli/command_index.py:read_from_stdin", "src/toron/cli/command_mapping.py:read_from_stdin", "src/toron/cli/command_quantity.py:read_from_stdin", "src/toron/cli/command_add.py:add_label"]}
{"id": "C67", "title": "Administration commands change exactly what they say, and the exit code tells whether they did", "statement": "Adding attributes registers exactly the new names, after the known ones and in the order given, or changes nothing and exits with 1. Adding a partition adds exactly that partition or exits with 1, never with a traceback. Adding or renaming labels exits with 0 exactly when the names allow it and otherwise changes nothing. Moving a label or an attribute moves it by the number of places asked for and nothing else. Adding a weight group appends it under a fresh id, the first one and one marked as default become the default, and a known name exits with 1; updating one changes only the group named and in it only the description, selectors and default asked for, with the selectors sorted and without duplicates; after any sequence of these commands names and ids are unique and a default exists as soon as a group does. Adding a link changes only the file at the end of the arrow, adds exactly one link with the values given and exits with 1 for a known name; removing one takes the link and its mappings out of every file on the way where it is found, and exits with 1 exactly when it is found in none. Creating a file never touches an existing path, refuses blank names, and gives the domain asked for or else the file name without extension.", "quantifier": "all histories of a space, all argument values (names, selectors, numbers of places, directions), all paths and directories", "why_tests_cant": "Tests run each command on a small fresh file; which names are accepted, what stays the same and what the exit code says must hold for every history and every argument.", "anchors": ["src/toron/cli/command_add.py:add_attribute", "src/toron/cli/command_add.py:add_partition", "src/toron/cli/command_add.py:add_label", "src/toron/cli/command_add.py:add_weight", "src/toron/cli/command_add.py:add_link", "src/toron/cli/command_update.py:update_weight", "src/toron/cli/command_update.py:update_label", "src/toron/cli/command_update.py:update_attribute", "src/toron/cli/command_remove.py:remove_link", "src/toron/cli/command_rename.py:rename_label", "src/toron/cli/command_init.py:create_file", "src/toron/cli/main.py:main"]}
{"id": "C68", "title": "The description of a data space says what is in it", "statement": "repr of a data space and the info command show the domain, every partition definition once (the whole space first) with its stored granularity, rounded so that different granularities stay different and aligned in one column, every weight group once in the order of the names with the remark that tells whether it is the default and whether it is incomplete, and every incoming link once in the line of its space, one line for each space; 'None' stands for an empty list. As long as no column was dropped a description always exists, however columns were added, renamed or moved and definitions added or removed, provided the granularities can be told apart with 17 decimal places and the default weight group exists; otherwise it exists exactly if every label of a definition is displayed and every displayed definition has a row in the structure. If names contain no comma, parenthesis or line break, the text tells exactly which weight groups and links there are, which are defaults and which are complete, and each part of the whole text can be recovered. Without styles the command writes the file name and the text of repr; it dims exactly the registered attributes without data and fails if there is data for an attribute that is not registered.", "quantifier": "all spaces (columns, definitions, granularities, weight groups, links, attributes), all histories of column calls, all styles and terminal widths", "why_tests_cant": "Tests compare the text of a few fixed spaces; that nothing is missing or shown twice, that different spaces never look alike and that the description never fails must hold for all of them.", "anchors": ["src/toron/data_service.py:get_dataspace_info_text", "src/toron/data_service.py:get_default_weight_group", "src/toron/data_service.py:get_loaded_attributes", "src/toron/data_service.py:get_domain", "src/toron/data_models.py:BaseStructureRepository.get_by_labels", "src/toron/space.py:DataSpace.__repr__", "src/toron/cli/command_info.py:write_to_stdout"]}
{"id": "C69", "title": "Every level is stored with its own granularity", "statement": "After any history of calls on a space, of which none replaces labels while it inserts records and none drops label columns, every row of the structure holds as granularity the entropy of the classes that its columns make of the records (the record without labels left out), and none if it has no column or there is no record. So a level with more columns never has a smaller stored granularity, and if the level of all columns is there, a level with the largest stored granularity tells all records apart. After any history at all, a call that returns and that adds or removes records, relabels them by update_index, adds columns or defines partitions makes all granularities right again; a call that fails leaves them as they were. Partitions and new columns give exactly the rows that follow from them, and no other call changes which rows there are.", "quantifier": "all histories of calls on a space, all records, partitions and columns", "why_tests_cant": "Tests look at the granularities after one call on one small space; whether they are still right after an arbitrary sequence of calls depends on every call that changes records, columns or partitions.", "anchors": ["src/toron/data_service.py:rebuild_structure_table", "src/toron/data_service.py:refresh_structure_granularity", "src/toron/data_service.py:refresh_or_rebuild_structure_granularity", "src/toron/space.py:DataSpace.insert_index", "src/toron/space.py:DataSpace.update_index", "src/toron/space.py:DataSpace.delete_index", "src/toron/space.py:DataSpace.drop_index_columns", "src/toron/dal1/repositories.py:StructureRepository"]}
{"id": "C70", "title": "A space always has either no default weight group or one that exists", "statement": "As long as set_default_weight_group is given groups that are there, get_default_weight_group never fails: it returns None or one of the weight groups, after any history of calls. Adding a group fails exactly if the name is taken; otherwise the name is appended and the group becomes the default exactly if this was asked for, or nothing was said and it is the first. Editing a group that is not there does nothing; otherwise it fails exactly if the new name belongs to another group, and else only that group gets the new name and it stays the default if it was. Dropping a group that is not there does nothing; otherwise it fails exactly if no default is set, and else removes that group and its weights and nothing else, and the default is gone exactly if it was that group. Inserting weights into a group that is not there adds it without making it the default. No other call changes the names or the default. Adding, editing and choosing a default changes no record, weight, link or mapping. No two groups have the same name.", "quantifier": "all histories of calls on a space (with the space stored and opened again in between), all names and arguments", "why_tests_cant": "Tests try single calls on small spaces; that the default never points to a group that is gone must hold after every sequence of calls, including those that are not about weight groups.", "anchors": ["src/toron/space.py:DataSpace.add_weight_group", "src/toron/space.py:DataSpace.edit_weight_group", "src/toron/space.py:DataSpace.drop_weight_group", "src/toron/space.py:DataSpace.get_default_weight_group", "src/toron/space.py:DataSpace.set_default_weight_group", "src/toron/space.py:DataSpace.get_weight_group", "src/toron/data_service.py:get_default_weight_group", "src/toron/data_service.py:set_default_weight_group"]}
{"id": "C71", "title": "The tables of a mapping show every pair and every unmatched record once", "statement": "get_mapping(source, target, link_name) yields a heading and then one row for each element of the export of that link, in order: the pair of the undefined records, every mapping, and the unmatched records of both sides. Each row has the id, domain and labels of both records and the value; a side without a record is empty, and so are the labels of a source that no longer exists; every row is as wide as the heading, part by part, and the last column names the columns that the mapping leaves open. No record of either space is left out, if nobody claimed completeness that did not hold. Without such a link only the heading is yielded and then an error is raised. select_mappings yields for each record that meets the criteria one row per mapping of the link that is meant, or one row without a mapping, and nothing if no link is meant. The two tables agree: for records of the target they have the same sources, values and open columns.", "quantifier": "all histories of calls on the two spaces, all link names, domains, criteria on known columns", "why_tests_cant": "Tests compare the table of one small mapping; that no pair is lost, doubled or shifted into another column must hold for all spaces, domains and mappings, including stale and unmatched records.", "anchors": ["src/toron/graph.py:get_mapping", "src/toron/graph.py:_get_mapping_elements", "src/toron/graph.py:_get_ambiguous_fields", "src/toron/space.py:DataSpace.select_mappings"]}
{"id": "C72", "title": "The text about a mapping has the right numbers", "statement": "get_mapping_info_str(source, target, link_name) names the link that is meant (the default one if no name is given), calls each space by its file name without the extension or else by the start of its unique id, and says for both spaces how many of how many records are matched; these are the true numbers, the undefined records included. A further line gives the number of mapped sources that no longer exist, exactly if there are any. The call fails exactly if no link is meant or the one that is meant is to another space.", "quantifier": "all histories of calls on the two spaces (the target changed in one session, nobody claiming completeness that does not hold), all link names and paths", "why_tests_cant": "The numbers come partly from comparing hashes and partly from counting; that they are the true ones for every history cannot be tested with examples.", "anchors": ["src/toron/graph.py:get_mapping_info_str", "src/toron/graph.py:_get_mapping_stats", "src/toron/space.py:DataSpace.get_link"]}
{"id": "C73", "title": "The row counts that a changing call reports are true", "statement": "update_index, delete_index, update_weights, delete_weights, insert_mappings, update_mappings and delete_mappings count what they did with each row and report it by a warning or in the log. Every row is counted once (a row of update_index that merges also counts as merged), and for a reason that holds: there is no record with the id, its labels differ, the mapping level is unknown, there is no such weight or mapping, its value or level differs; such a row changes nothing. The numbers reported as inserted, merged and deleted are exactly the change in the number of stored weights, records and mappings. There is no warning exactly if every row was handled as expected; otherwise the warning has each number that is not zero once, and the numbers add up to all that was counted.", "quantifier": "all histories of calls, all lists of rows, all counters", "why_tests_cant": "The reasons depend on the state that earlier rows of the same call left behind; tests check a few short tables.", "anchors": ["src/toron/space.py:warn_if_issues", "src/toron/space.py:DataSpace.update_index", "src/toron/space.py:DataSpace.delete_index", "src/toron/space.py:DataSpace.update_weights", "src/toron/space.py:DataSpace.delete_weights", "src/toron/space.py:DataSpace.insert_mappings", "src/toron/space.py:DataSpace.update_mappings", "src/toron/space.py:DataSpace.delete_mappings"]}
{"id": "C74", "title": "The numbers that the loading calls log are true", "statement": "insert_index, insert_weights and mapping insertion by level count what they do with their rows and write the numbers to the log. Every row of insert_weights and of the mapping insertion is counted exactly once, and for a reason that holds of the space as the earlier rows left it: the value is not a real number, there is no record with the id, its labels differ, no record has the labels, it is the undefined record, the mapping level is not one of the structure, both ends are undefined; such a row changes nothing. A row of insert_index that has an empty label changes nothing and is counted as that; any other row stands for one record, found by id or labels or newly added, and each of its weight cells is counted as inserted, ignored or replaced exactly if that happened. The numbers of inserted labels, weights and mappings are exactly the gains of the tables. The logs of these calls and of update_weights and delete_weights have no number twice, only true ones, and each that is not zero.", "quantifier": "all spaces, all lists of rows, all policies for conflicts, all selections of weight groups", "why_tests_cant": "What a row counts as depends on the rows before it and on the policies; tests check a few short tables and mostly the state, not the numbers.", "anchors": ["src/toron/space.py:DataSpace.insert_index", "src/toron/space.py:DataSpace.insert_weights", "src/toron/space.py:DataSpace.insert_mappings2", "src/toron/space.py:DataSpace.update_weights", "src/toron/space.py:DataSpace.delete_weights"]}
{"id": "C75", "title": "The tables of stored quantities are complete and rectangular", "statement": "With a header, select_quantities2, select_quantities, select_quantities_without_index and select_unmatched_quantities yield the names of the columns (domain if there is one, labels, attributes, quantity) and then one row for each quantity of their kind, none twice, with exactly one cell per name: the domain, the labels of the location, the value of each attribute or None, the number. The attribute columns are the registered ones, or all names in use. Without the header, the first two yield the same without the first row, in every space. The other two then yield nothing and raise UnboundLocalError exactly if there is something to yield. In a damaged space a table ends with a KeyError exactly if it comes to a quantity without its attribute group.", "quantifier": "all spaces with sound tables (all histories without reopening), all quantities, both values of header", "why_tests_cant": "The width of the rows and the attribute columns depend on all stored groups together; tests use one set of attributes, and none calls the last two without a header.", "anchors": ["src/toron/space.py:DataSpace.select_quantities2", "src/toron/space.py:DataSpace.select_quantities", "src/toron/space.py:DataSpace.select_quantities_without_index", "src/toron/space.py:DataSpace.select_unmatched_quantities"]}
