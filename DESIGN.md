# Formal model of shawnbrown/toron

Everything below refers to the Python sources in /repo (pinned commit) and to the Coq 8.16.1 development in `rocq/theories`.

## Trusted base

* The Coq 8.16.1 kernel. No kernel check is switched off. There are no axioms, parameters, admitted proofs or open obligations of our own.
* What `Print Assumptions` reports under each theorem; the list is repeated per property below. All theorems are closed under the global context except those of C04 and C05 that speak about real numbers. These assume the axioms of Coq's own `Reals` library: `ClassicalDedekindReals.sig_not_dec`, `ClassicalDedekindReals.sig_forall_dec`, `FunctionalExtensionality.functional_extensionality_dep` and `Classical_Prop.classic`.
* Loading the standard library also brings the opaque constants of `Rdefinitions` (`RbaseSymbolsImpl`, `RinvImpl`) and of `Coq.ssr.ssrunder` (`Under_rel`) into the environment. They are module-type implementations of the standard library; no theorem depends on `Under_rel`.
* The faithfulness of the models to the code. Nothing was run: the models were written by reading /repo as text. Every definition cites the file and lines it models and states its simplifications.
* Knowledge about Python and SQLite that the code relies on: iteration order of dictionaries, `sorted` being stable, `islice`, `zip`, `int()` on texts, `struct.pack`, CRC-32, SQLite's type affinity, UNIQUE, CHECK, foreign keys and their actions, triggers, rowid choice, three-valued logic in WHERE, transactions. Where a definition depends on such knowledge, its comment says so.

## Modelling conventions

* A Python function is a total Gallina function that follows it branch by branch. Exceptions are values: `res A := Ok a | Err e` with one constructor of `exn` for each exception class (`Prelude.v`). Error branches are modelled, not totalised away.
* Python floats and SQLite REAL values are exact rationals (`Q`), or reals for entropy; rounding error, NaN and infinities are outside the model unless a definition says otherwise (`FormatGran_Model.v` models NaN and negative zero).
* Texts are lists of Unicode code points (`text`), bytes are numbers below 256.
* Tables are lists of records in storage order; constraints and triggers are part of the modelled statements.
* Generators are lists of the yielded values together with the exception that ends them, if any. Where laziness matters (C47) iterators are modelled as such.
* "All histories" means: for every list of calls with any arguments, starting from a new space, by induction over the list. Calls that raise leave the state as the model of the transaction (C23) says.
* A theorem named `..._refuted` shows that the claim, or a natural stronger form of it, is false of the modelled code: it exhibits an input. These are findings about the code; they are collected at the end.

## Which code is modelled

| Model | Code |
| --- | --- |
| `Partitions_Model.v` | `partitions.py`; partition calls of `space.py` and `data_service.py` |
| `BitFlags_Model.v` | `_utils.py` `BitFlags` (without slices, repr, hash) |
| `Selectors_Model.v`, `SelectorParse_Model.v` | `selectors.py`; the Lark grammar as an equivalent recursive descent |
| `Disaggregate_Model.v`, `Quantize_Model.v` | `data_service.py` disaggregation; `_utils.py` quantization and `SplitMix` |
| `LinkRef_Model.v` | `data_service.py` link references; the repository calls they use |
| `Db_Model.v` | tables `label_index`, `label_structure`, `weight_group`, `weight`, `link`, `mapping`, `property` with their constraints and triggers; index, weight, link and mapping calls of `space.py`; reopening a stored space |
| `Columns_Model.v` | label columns, attributes, display order, structure table (`space.py`, `data_service.py`, `dal1/label_manager.py` lines 21-107) |
| `Quantity_Model.v`, `SpaceRead_Model.v` | locations, attribute groups, quantities; calling a space |
| `Reader_Model.v` | `reader.py`: collecting, output, translation, pivoting, quantizing |
| `Mapper_Model.v` | `mapper.py`: loading, matching, translations |
| `Elements_Model.v` | `data_service.py` mapping elements; `cli/command_mapping.py` export |
| `Streams_Model.v` | `_utils.py` tabular normalisation; look-ahead of `cli/command_mapping.py` and `cli/command_index.py` |
| `Reshape_Model.v` | `_utils.py` `wide_to_long`, `wide_to_narrow` |
| `PartSort_Model.v`, `FormatGran_Model.v` | `formatters.py` |
| `Granularity_Model.v` | `data_service.py` granularity, `dal1/optimizations.py` |
| `Transaction_Model.v`, `SaveFile_Model.v` | `space.py` managed transactions; `dal1/data_connector.py` transactions and saving |
| `IndexCode_Model.v`, `SeqHash_Model.v` | `cli/common.py` index codes; `_utils.py` `SequenceHash` |
| `Migrations_Model.v` | `dal1/migrations.py`, the constraint parts of `dal1/schema.py` |
| `IndexCli_Model.v` | `cli/command_index.py` 29-121 (`write_to_stdout`, `read_from_stdin`), `space.py` 575-767 (`insert_index` for a table with its header); CSV files are lists of rows of strings; `repr` and `float` of numbers are parameters |
| `MapStats_Model.v` | `graph.py` 149-271 (`_get_mapping_stats`, `_log_load_mapping_stats`), `dal1/repositories.py` (`get_cardinality`, `get_index_id_cardinality`) |
| `EdgeText_Model.v` | `_utils.py` 359-445 (`parse_edge_shorthand`), `mapper.py` 48-59 with `Streams_Model.v` |
| `MapCli_Model.v` | `cli/command_mapping.py` 361-445 (`read_from_stdin`), 471-606 with `Elements_Model.v`, `mapper.py` 62-165 for cells of CSV files, SQLite's conversion of text to numbers (exact, without the limits of exponents); CSV files are lists of rows of strings |
| `WeightIter_Model.v` | `space.py` 1216-1268 (`select_weights`), `data_models.py` 1286-1347 (`QuantityIterator` without `to_pandas`), `graph.py` 568-627 (`get_weights`), 630-711 (`_translate`, `translate`) |
| `LoadMap_Model.v` | `graph.py` 71-107 (`normalize_mapping_data`), 273-352 (`load_mapping`), `mapper.py` 444-855 (`Mapper_OLD`) |
| `QuantCli_Model.v` | `cli/command_quantity.py` 24-62 (`read_from_stdin`, `write_to_stdout`), `space.py` 2295-2500 (`insert_quantities2`, `select_quantities2`) for tables with their header, with the log; CSV files are lists of rows of strings; `float` is taken to read texts as SQLite does |
| `Legacy_Model.v` | `dal1/label_manager.py` 110-331 (`legacy_rename_labels`, `legacy_drop_labels`) at the level of SQL statements, `schema.py` 252-401 for label columns, constraints and the check of foreign keys; what SQLite does for `CREATE TABLE`, `INSERT ... SELECT`, `DROP TABLE`, `ALTER TABLE ... RENAME TO` and AUTOINCREMENT |
| `Quote_Model.v` | `dal1/schema.py` 252-287 and 304-321, the SQL texts with names of columns in `dal1/label_manager.py`, `dal1/repositories.py` and `dal1/optimizations.py`; SQLite's tokenizer (forms of numbers unchecked, a dot is always an operator) and the simple queries for records and locations (`space.py` 875-888) |
| `FileOpen_Model.v` | `dal1/data_connector.py` 35-131, 305-320, 466-584 (POSIX only, `cache_to_drive` left out; `save_to_file` in effect only), `data_access.py` 108-136, `space.py` 171-197 and 3011-3082, `cli/common.py` 76-111; posixpath's functions, UTF-8 with surrogateescape, `urllib.parse.quote`, SQLite's URI parser, a file system with permissions and without symbolic links; migration steps are a parameter |
| `Json_Model.v` | `json.dumps`, `json.loads` and SQLite's `json_valid`, `json_type`, `json_each`, `json_extract` on the texts that occur; `dal1/schema.py` 86-89, 475-678, 784-795, `dal1/repositories.py` 357-419, 558-651, 817-844, 892-925, 1244-1285, `data_models.py` 872-895. Floats are their literals; recursion limits, the limit on digits of integers and NUL characters are left out |
| `Csv_Model.v` | `cli/common.py` 53-73, 114-142, the use of `csv.reader` in `command_index.py`, `command_mapping.py`, `command_quantity.py`; Python's `_csv` reader and writer for the default dialect, UTF-8, universal newlines, `str.strip`, `str.splitlines`. Which characters are word characters is a parameter; stdin in another encoding is left out |
| `AdminCli_Model.v` | `cli/command_add.py`, `command_update.py`, `command_remove.py`, `command_init.py`, `command_rename.py` (`rename_label`), the last lines of `cli/main.py`, `space.py` 1145-1195, `dal1/repositories.py` 381-418, `os.path.splitext`. Backups and log texts are left out; the two files of a link are different files |
| `Info_Model.v` | `data_service.py` 631-647, 690-698, 995-1001, 1038-1068, 1089-1108, 1143-1233, `space.py` `__repr__`, `cli/command_info.py`, `data_models.py` 564-590. The conversion of the creation time to local time is left out (the text is an input) |
| `StoredGran_Model.v` | `data_service.py` 784-814, 927-986, and when `space.py` 279-363, 420-573, 575-770, 890-989, 1018-1112 call them. Granularities are real numbers; which partitions a definition yields is an input (C01-C03, C52) |
| `WGroup_Model.v` | `data_service.py` 631-647, `space.py` 1116-1143 (the calls that change groups are in `Db_Model.v`) |
| `MapTable_Model.v` | `graph.py` 362-379, 418-565, `space.py` 1699-1745 |
| `Report_Model.v` | `space.py` 101-147 and the counters of 890-989, 1005-1114, 1391-1474, 1491-1579, 1855-2209 (row loops; the texts of the entries of a warning and of the log are not modelled) |
| `Loaded_Model.v` | `space.py` the counters and log lines of 575-791, 1270-1389, 1455-1474, 1570-1579, 1747-1853 (the texts of the lines and the line about extra columns are not modelled) |
| `QTable_Model.v` | `space.py` 2469-2500, 2580-2650, 2689-2729 with their headers, as generators |

Not modelled: the previous generation of the package (`_dal.py`, `_schema.py`, `_xmapper.py`, `xnode.py`), which the current modules do not use for the modelled behaviour; graph-level convenience functions beyond those cited; the CLI's argument parsing, terminal colours and log texts (except those of C45 and C53); `rename_domain`; connection pooling and locking between processes; SHA-256 itself (C27 and C40 speak about the digested bytes); floating point rounding; the Lark library; pandas interfaces.

## Properties

For each property: the files `X_Model.v` (the code), `X_Spec.v` (the statement in independent terms), `X_Proofs*.v` and `X_Properties.v` (the theorems, each with its `Print Assumptions` and with examples showing that its hypotheses can be met), the way it is proved, and the theorems. "Assumptions" is what `Print Assumptions` prints.

### C01 Structure is exactly the set of unions of the partition definitions

* Files: `Partitions`.
* Method: `make_structure` with the order of `itertools.combinations`; combinations are characterised as sublists of a given length, then unions by double inclusion.
* Status: proved. make_structure modelled line by line; sets as lists compared by elements
* Theorems without assumptions ("Closed under the global context"): `C01_structure_is_all_unions`.

### C02 Stored partition definitions are a minimal generating set

* Files: `Partitions`.
* Method: stable sort by size, induction over the sorted list; minimality because the kept sets are exactly the irreducible elements of the union semilattice.
* Status: proved. the docstring's wording about smallest cover is refuted; the guarantee that holds is proved
* Theorems without assumptions ("Closed under the global context"): `C02_minimal_generating_set`, `C02_order_independent`, `C02_smallest_cover_refuted`.

### C03 Partition-definition history keeps the whole space and stays irredundant

* Files: `Partitions`.
* Method: state machine over columns and stored definitions, invariant by induction over histories; acceptance conditions as equivalences.
* Status: proved. histories of add/add-many/drop partition calls; label column changes are separate
* Theorems without assumptions ("Closed under the global context"): `C03_history_invariant`, `C03_add_one_accepted_iff`, `C03_add_many_accepted_iff`, `C03_drop_accepted_iff`, `C03_effect`.

### C04 Granularity orders partitions by refinement

* Files: `Granularity`.
* Method: over the reals: the code computes the entropy of the block sizes; rewritten as a mean over records of the logarithm of the block size, which is monotone record by record; equality because the logarithm is injective.
* Status: proved. Granularity over exact reals: entropy of the blocks, range, monotone under refinement, equality iff same blocks, finest level unique.
* Theorems without assumptions ("Closed under the global context"): `C04_blocks`.
* Theorems that assume the axioms of the standard reals (see above): `C04_none`, `C04_defined`, `C04_entropy`, `C04_range`, `C04_monotone`, `C04_equal`, `C04_whole`, `C04_zero`, `C04_finest`.

### C05 The optimized and the plain granularity computations agree

* Files: `Granularity`.
* Method: the SQL computation (grouping) and the Python one (distinct, filter) are both reduced to the blocks of the index.
* Status: proved. Plain and SQL computations agree on every reachable index (exact reals).
* Theorems that assume the axioms of the standard reals (see above): `C05_agree`, `C05_reached`.

### C06 BitFlags round trips and compares by meaning

* Files: `BitFlags`.
* Method: bits of bytes and bytes of bits are inverse up to trailing zeros; equality compares the meaning (set of positions).
* Status: proved. bit constructors, byte round trip, equality, indexing and union; comparing with a bytes object by its bits is refuted
* Theorems without assumptions ("Closed under the global context"): `C06_of_bits`, `C06_of_bytes`, `C06_bytes_round_trip`, `C06_equality`, `C06_getitem`, `C06_or`, `C06_bytes_equality_refuted`.

### C07 Selectors mean what their syntax says

* Files: `Selectors`.
* Method: inductive syntax, independent denotation in the specification, induction over selectors.
* Status: proved. every tree the constructors deliver except the self-containing objects made from :is(:is(..)), which are refuted
* Theorems without assumptions ("Closed under the global context"): `C07_meaning`, `C07_constructed_simple`, `C07_constructed_container`, `C07_nested_is_refuted`.

### C08 Specificity laws

* Files: `Selectors`.
* Method: specificity equals the documented pair; permutation invariance and growth by induction.
* Status: proved. specificity equals the documented pair; order independence and growth
* Theorems without assumptions ("Closed under the global context"): `C08_specificity`, `C08_prescription_unique`, `C08_reordering`, `C08_compound_grows`.

### C09 Equal selectors are interchangeable

* Files: `Selectors`.
* Method: comparison keys up to set equality; equivalence relation; equal selectors match the same rows.
* Status: proved. equivalence for all texts; same matches when lower-case equality implies upper-case equality (ASCII instance proved); fails for Unicode case mappings and for specificity, both refuted
* Theorems without assumptions ("Closed under the global context"): `C09_equivalence`, `C09_equal_match`, `C09_ascii`, `C09_unicode_refuted`, `C09_specificity_refuted`.

### C10 Printing and re-parsing a selector gives the selector back

* Files: `SelectorParse`.
* Method: recursive descent over characters with fuel; parsing inverts printing, by induction over selectors; the fuel is shown to suffice.
* Status: proved. round trip for every selector of the language with printable values and for every parsed selector with printable values (automatic without single quotes); the unconditional claim is refuted
* Theorems without assumptions ("Closed under the global context"): `C10_language_round_trip`, `C10_parsed_in_language`, `C10_round_trip`, `C10_round_trip_double_quoted`, `C10_parsed_is_proper`, `C10_fuel_suffices`, `C10_round_trip_refuted`, `C10_nested_is_refuted`, `C10_unquoted_value_refuted`.

### C11 Greatest unique specificity picks the right key

* Files: `Selectors`.
* Method: sorted/groupby modelled; the result is the unique key prescribed by the specification.
* Status: proved. dictionaries with distinct keys; keys with None have no selectors
* Theorems without assumptions ("Closed under the global context"): `C11_greatest_unique`, `C11_right_key_unique`, `C11_order_independent`.

### C12 Disaggregating a value conserves it

* Files: `Disaggregate`.
* Method: sum over Q.
* Status: proved. Exact rationals instead of floats.
* Theorems without assumptions ("Closed under the global context"): `C12_conserves`, `C12_raises`.

### C13 Disaggregated shares are proportional and never negative for a non-negative value

* Files: `Disaggregate`.
* Method: shares computed in closed form over Q.
* Status: proved. Exact rationals instead of floats; nonnegativity needs nonnegative weights, refuted otherwise.
* Theorems without assumptions ("Closed under the global context"): `C13_proportional`, `C13_nonnegative`, `C13_negative_weights_refuted`.

### C14 Quantizing preserves the total and moves every value by less than one

* Files: `Quantize`.
* Method: largest remainder over Q; the number of units to hand out lies between zero and the number of rows.
* Status: proved. Exact rationals; mixed signs and wrong totals are refuted.
* Theorems without assumptions ("Closed under the global context"): `C14_quantize`, `C14_whole_total`, `C14_mixed_signs_refuted`, `C14_wrong_total_refuted`.

### C15 Quantizing does not depend on the input order

* Files: `Quantize`.
* Method: SplitMix64 is a bijection on 64-bit numbers, so sorting keys of distinct ids are distinct and sorting is canonical.
* Status: proved. Distinct 64-bit ids.
* Theorems without assumptions ("Closed under the global context"): `C15_order_independent`, `C15_splitmix_bijective`.

### C16 Calling a space conserves every quantity that matches

* Files: `SpaceRead`, `Quantity`.
* Method: loop over structures, refinement to a specification of shares; histories of calls for the hypotheses.
* Status: proved. Reading a space: each selected quantity at a structured location is read once and divided without loss; totals per attributes; exact success condition; findings on the undefined record, the log and unmatched locations.
* Theorems without assumptions ("Closed under the global context"): `C16_reached`, `C16_read`, `C16_conserved`, `C16_grand_total`, `C16_whole`, `C16_succeeds`, `C16_undefined_refuted`, `C16_log_refuted`, `C16_unmatched_fails`.

### C17 Refreshing proportions makes them a probability distribution

* Files: `Db`.
* Method: after refresh the proportions of one source sum to one and are proportional.
* Status: proved. Exact rationals for stored floats.
* Theorems without assumptions ("Closed under the global context"): `C17_refresh`.

### C18 Translating across a complete link conserves totals

* Files: `Reader`.
* Method: translation as weighted sums; end to end over histories of two spaces.
* Status: proved. Exact rationals; end to end for all spaces that can be made in one session; a link with a hand-set hash drops quantities (refuted variant).
* Theorems without assumptions ("Closed under the global context"): `C18_loaded`, `C18_chosen_link`, `C18_amounts`, `C18_totals`, `C18_spaces`, `C18_quantized_close`, `C18_succeeds`, `C18_dropped_refuted`.

### C19 Reader output is the grouped total of its input

* Files: `Reader`.
* Method: grouping characterised by totals per key.
* Status: proved. 
* Theorems without assumptions ("Closed under the global context"): `C19_columns`, `C19_grouped_totals`, `C19_one_record_per_pair`, `C19_grand_total`, `C19_output_succeeds`.

### C20 Pivoting loses no value

* Files: `Reader`.
* Method: pivot cells characterised by totals (or means) per key pair.
* Status: proved. Sum and mean; the order of the columns is not modelled.
* Theorems without assumptions ("Closed under the global context"): `C20_cells`, `C20_mean_cells`, `C20_sum`, `C20_succeeds`.

### C21 Record matching respects labels, limits and granularity order

* Files: `Mapper`.
* Method: matching characterised row by row for any history of the two spaces.
* Status: proved. On states reachable by any history: exact matches of every row, soundness, limit, overlap rule, order of levels, counters, failures, complete matching; on a first call (a second call adds matches again: refuted). Rows arrive parsed; granularity is an arbitrary function of the structure row.
* Theorems without assumptions ("Closed under the global context"): `C21_load`, `C21_load_fails`, `C21_finer_first`, `C21_all_levels`, `C21_fails`, `C21_matches`, `C21_sound`, `C21_limit`, `C21_no_overlap`, `C21_counters`, `C21_fully_matched`, `C21_row_dropped_refuted`, `C21_limit_twice_refuted`.

### C22 Mapping proportions conserve each source row value

* Files: `Mapper`.
* Method: shares by weights sum to one; double counting over matches.
* Status: proved. Shares, totals for any selection of rows, value at each pair and level, both directions, and storage through insert_mappings2; exact rationals.
* Theorems without assumptions ("Closed under the global context"): `C22_shares`, `C22_total`, `C22_pairs`, `C22_levels`, `C22_keys`, `C22_directions`, `C22_stored`, `C22_fully_matched_refuted`.

### C23 Operations are all-or-nothing

* Files: `Transaction`.
* Method: programs of statements over committed and working state with faults at every point; induction over programs.
* Status: proved. Transactions as programs of statements over a connection with committed and working states; failures of statements, BEGIN and COMMIT and interrupts at every point. Refutations: error masked when SQLite gave up the transaction; a body that swallows such an error leaves later writes; delete_unmatched_quantities and reify_mappings do not use a transaction.
* Theorems without assumptions ("Closed under the global context"): `C23_closed`, `C23_all_or_nothing`, `C23_error`, `C23_nested`, `C23_history`, `C23_masked_refuted`, `C23_swallowed_refuted`, `C23_unmanaged_refuted`.

### C24 Saving a file is atomic with respect to the destination

* Files: `SaveFile`.
* Method: saving as system calls with a fault or crash at each; case analysis over all traces.
* Status: proved. save_to_file with a fault at every system call; atomicity of os.replace is part of the model.
* Theorems without assumptions ("Closed under the global context"): `C24_atomic`, `C24_durable`, `C24_success`, `C24_works`, `C24_failure`, `C24_masked_refuted`, `C24_interrupt_refuted`.

### C25 Index ids are never reused

* Files: `Db`.
* Method: invariant over all histories.
* Status: proved. All histories of the modelled operations.
* Theorems without assumptions ("Closed under the global context"): `C25_ids_never_reused`.

### C26 Index labels identify records

* Files: `Db`.
* Method: invariant over all histories.
* Status: proved. All histories.
* Theorems without assumptions ("Closed under the global context"): `C26_labels_identify`.

### C27 The index hash property follows the set of index ids

* Files: `Db`.
* Method: invariant over all histories; the hash is represented by the digested ids.
* Status: proved. Hash represented by the list of ids it digests (see C40).
* Theorems without assumptions ("Closed under the global context"): `C27_hash`, `C27_same_hash`.

### C28 Weights stay well formed

* Files: `Db`.
* Method: invariant over histories; the reference part for one session.
* Status: proved. Reference part proved for one session; refuted for reopened spaces (finding).
* Theorems without assumptions ("Closed under the global context"): `C28_weights`, `C28_weights_belong`, `C28_orphan_weights_refuted`.

### C29 The completeness flag of a weight group is truthful

* Files: `Db`.
* Method: invariant over histories: soundness and, within one session, exactness of the flag.
* Status: proved. Soundness for all histories that do not set the flag by hand; exactness within one session; findings for empty index and reopened spaces.
* Theorems without assumptions ("Closed under the global context"): `C29_complete_flag_sound`, `C29_complete_flag_exact`, `C29_empty_index_refuted`, `C29_reopened_refuted`.

### C30 At most one default link per other space

* Files: `Db`.
* Method: invariant over all histories plus exact effects of each call.
* Status: proved. All histories.
* Theorems without assumptions ("Closed under the global context"): `C30_link_table`, `C30_add_link`, `C30_edit_link`, `C30_drop_link`, `C30_failed_changes_nothing`.

### C31 Mappings stay well formed

* Files: `Db`.
* Method: invariant over histories.
* Status: proved. Reference part proved for one session; refuted for reopened spaces (finding).
* Theorems without assumptions ("Closed under the global context"): `C31_mappings`, `C31_mappings_belong`, `C31_orphan_mappings_refuted`.

### C32 Merging index records conserves weights and mapping values

* Files: `Db`.
* Method: loop invariant over merged groups; sums over Q.
* Status: proved. Finding: a row with unchanged labels deletes the record.
* Theorems without assumptions ("Closed under the global context"): `C32_update_index_conserves`, `C32_merge`, `C32_unchanged_row_refuted`.

### C33 Deleting an index record removes exactly that record and its dependants

* Files: `Db`.
* Method: exact effect of deletion on all tables.
* Status: proved. Locations and quantities are not in this model (see C34, C36).
* Theorems without assumptions ("Closed under the global context"): `C33_delete_rows`, `C33_delete_criteria`.

### C34 Conflict policies of quantity insertion

* Files: `Quantity`.
* Method: value at each place after the loop, by induction over rows, for each policy.
* Status: proved. All policies of insert_quantities2: value at every place, well-formed tables in every history, total, row order, exact acceptance condition; the older insert_quantities too.
* Theorems without assumptions ("Closed under the global context"): `C34_tables`, `C34_references`, `C34_policy`, `C34_total`, `C34_order`, `C34_accepts`, `C34_failure`, `C34_older`.

### C35 Conflict policies of weight insertion

* Files: `Db`.
* Method: case analysis per policy, exact resulting table.
* Status: proved. 
* Theorems without assumptions ("Closed under the global context"): `C35_add_or_resolve`, `C35_refused`.

### C36 Unmatched locations are exactly the ones not covered

* Files: `Quantity`, `SpaceRead`.
* Method: equivalence with a specification of coverage; refutations for the undefined record.
* Status: proved. Reported means: level not in the structure or no record other than the undefined one agrees. The English claim fails for locations agreeing only with the undefined record (C36_undefined_refuted) and, for the deletion, after reopening the space (C36_reopened_refuted).
* Theorems without assumptions ("Closed under the global context"): `C36_reported`, `C36_counts`, `C36_deleted`, `C36_deleted_index`, `C36_select`, `C36_undefined_refuted`, `C36_reopened_refuted`.

### C37 Wide-to-long reshaping is lossless

* Files: `Reshape`.
* Method: blocks of long rows per wide row; injectivity by counting.
* Status: proved. wide_to_long and wide_to_narrow: one block of long rows for each wide row, in order, with the kept cells and the stacked cell; two wide tables with the same header and the same long table are equal; which inputs raise. Findings: one-shot iterator of columns loses all rows; equal names, clashing names, extra cells and extra keys lose data silently.
* Theorems without assumptions ("Closed under the global context"): `C37_long_sequences`, `C37_long_lossless`, `C37_long_missing`, `C37_long_name`, `C37_long_mappings`, `C37_long_mappings_lossless`, `C37_long_other`, `C37_narrow_mappings`, `C37_narrow_sequences`, `C37_narrow_clash`, `C37_narrow_missing`, `C37_narrow_agrees`, `C37_iterator_refuted`, `C37_iterator_loses`, `C37_same_name_refuted`, `C37_overwritten_refuted`, `C37_extra_cells_refuted`, `C37_extra_keys_refuted`, `C37_no_columns_refuted`, `C37_empty_refuted`.

### C38 Index codes round trip and detect single-space typos

* Files: `IndexCode`.
* Method: bitwise CRC-32, linear with respect to exclusive or and injective on 32-bit states, so it detects every burst of up to 32 bits; decoding inverts encoding.
* Status: proved. Exact CRC-32, packing, formatting and CPython's integer reading, for all texts and 64-bit ids. The part 'accepted only if it is the code of an id' is false of the code (C38_canonical_refuted); proved instead: accepted exactly if number, X, and hexadecimal number equal to the checksum.
* Theorems without assumptions ("Closed under the global context"): `C38_round_trip`, `C38_overflow`, `C38_shape`, `C38_accepts`, `C38_unicode`, `C38_is_code`, `C38_typo`, `C38_typo_low`, `C38_other_space`, `C38_position`, `C38_canonical_refuted`, `C38_collision_refuted`, `C38_struct_refuted`.

### C39 Reordering labels and attributes is a permutation

* Files: `Columns`.
* Method: moving one name is a permutation determined by position; invariant over histories.
* Status: proved. The permutation part of the display order holds for histories without renaming or dropping labels; with renaming it is false (C39_stale_display_refuted).
* Theorems without assumptions ("Closed under the global context"): `C39_move`, `C39_move_determined`, `C39_display_complete`, `C39_display_permutation`, `C39_move_label`, `C39_move_attribute`, `C39_stale_display_refuted`.

### C40 The index hash input is an injective encoding

* Files: `SeqHash`.
* Method: eight bytes per value, injective on lists; incremental feeding equals one-shot.
* Status: proved. SHA-256 itself is not modelled: the theorems are about the bytes fed to it.
* Theorems without assumptions ("Closed under the global context"): `C40_accepts_exactly`, `C40_otherwise_value_error`, `C40_bytes`, `C40_distinct`, `C40_incremental`, `C40_rejected_value_changes_nothing`, `C40_carry_on`, `C40_index_hash`.

### C41 Link references resolve without guessing

* Files: `LinkRef`.
* Method: search characterised by a declarative meaning of references.
* Status: proved. get_link returns exactly the link meant by the reference; findings about find_links_by_ref.
* Theorems without assumptions ("Closed under the global context"): `C41_get_link`, `C41_meant_unique`, `C41_get_link_error`, `C41_translation_choice`, `C41_same_search_refuted`.

### C42 Upgrading old files conserves quantities

* Files: `Migrations`.
* Method: each migration step as a table function; sums of groups conserved.
* Status: proved. REAL values are exact rationals. Findings: a mapping from the undefined record to a missing (NULL) target is dropped although it is not undefined-to-undefined; NULL references that 0.2.0 allowed block the upgrade; texts among the quantities become numbers.
* Theorems without assumptions ("Closed under the global context"): `C42_quantities`, `C42_mappings`, `C42_new_mappings`, `C42_succeeds`, `C42_null_target_refuted`, `C42_null_blocks_refuted`, `C42_text_quantity_refuted`.

### C43 Label and attribute names stay apart

* Files: `Columns`.
* Method: invariant over all histories; acceptance conditions as equivalences.
* Status: proved. All histories, including dropping columns.
* Theorems without assumptions ("Closed under the global context"): `C43_names`, `C43_case`, `C43_add_accepts`, `C43_rename_accepts`, `C43_register_accepts`.

### C44 Partition definitions are displayed completely and in order

* Files: `PartSort`.
* Method: sorting by keys that determine the definition.
* Status: proved. sort_partition_definitions: rearrangement of the given definitions with the whole space first, labels in label order, descending membership, each as often as given, raises exactly for unknown labels, result independent of iteration order. Finding: the list of the caller is changed.
* Theorems without assumptions ("Closed under the global context"): `C44_display`, `C44_whole_first`, `C44_as_often`, `C44_whole_once`, `C44_raises`, `C44_canonical`, `C44_argument_kept_refuted`, `C44_second_call`.

### C45 Exported mappings cover both sides

* Files: `Elements`, `Db`.
* Method: generator characterised as mappings plus unmatched records of both sides; completeness flags by the invariants of C50.
* Status: proved. Target and source are results of any histories of calls. Coverage theorems assume completeness was not claimed by hand. Findings: a link marked complete by hand hides unmatched records; the warnings name the wrong file; a dangling target (possible after storing and reopening) stops the output with a KeyError.
* Theorems without assumptions ("Closed under the global context"): `C45_link_needed`, `C45_exported`, `C45_not_both`, `C45_covers_target`, `C45_covers_source`, `C45_rows`, `C45_writes`, `C45_log`, `C45_dishonest_flag_refuted`, `C45_warning_refuted`, `C45_dangling_target_refuted`.

### C46 Displayed granularities stay distinct

* Files: `FormatGran`.
* Method: decimal rounding half to even; search for the least number of places.
* Status: proved. format_granularity over exact magnitudes with correct rounding (half to even): equal texts exactly for equal values, same width, least number of places from 3 to 17, raises exactly if none works. Hypothesis: no negative zero; findings show that it is needed.
* Theorems without assumptions ("Closed under the global context"): `C46_distinct`, `C46_texts`, `C46_least`, `C46_raises`, `C46_enough`, `C46_positive`, `C46_zero_text_refuted`, `C46_zero_distinct_refuted`, `C46_negative_refuted`, `C46_nan_refuted`.

### C47 Column detection never loses rows

* Files: `Streams`.
* Method: iterators with a look-ahead buffer; output equals input rows in order.
* Status: proved. Streams_Model.v: normalize_tabular, make_readerlike, make_dictreaderlike, eagerly_initialize, get_column_positions, get_location_factory, make_getter_functions, normalize_mapping_data, remap_index_codes_to_index_ids, the look-ahead of the index command. Iterators are finite and may end with an error; parse_edge_shorthand is a parameter.
* Theorems without assumptions ("Closed under the global context"): `C47_positions_return`, `C47_positions_limit`, `C47_positions_found`, `C47_positions_accept`, `C47_mapping_rows`, `C47_index_rows`, `C47_index_limit`, `C47_tabular_sequences`, `C47_tabular_mappings`, `C47_readerlike_sequences`, `C47_readerlike_mappings`, `C47_readerlike_dictreader`, `C47_dictreaderlike_mappings`, `C47_dictreaderlike_sequences`, `C47_eager`, `C47_none_row_refuted`, `C47_same_side_refuted`, `C47_tuple_header_refuted`, `C47_empty_input_refuted`.

### C48 Deleting weights or mappings keeps flags and proportions right

* Files: `Db`.
* Method: exact effects and re-established invariants.
* Status: proved. Findings: hidden mapping behind an ambiguous one; reify_mappings is not atomic.
* Theorems without assumptions ("Closed under the global context"): `C48_delete_weights_rows`, `C48_delete_weights_criteria`, `C48_delete_mappings_rows`, `C48_delete_mappings_criteria`, `C48_cleared`, `C48_hidden_mapping_refuted`, `C48_reify_partial_effect_refuted`.

### C49 New weight groups and links start empty

* Files: `Db`.
* Method: no dependants exist for a fresh id within one session.
* Status: proved. Finding: fails in reopened spaces.
* Theorems without assumptions ("Closed under the global context"): `C49_new_group_starts_empty`, `C49_new_link_starts_empty`, `C49_reopened_inherits_refuted`.

### C50 Link completeness, recorded source ids and proportions are truthful

* Files: `Db`.
* Method: invariant over histories.
* Status: proved. Finding: negative source ids never get a proportion.
* Theorems without assumptions ("Closed under the global context"): `C50_link_flag_sound`, `C50_link_flag_exact`, `C50_source_hash`, `C50_proportions`, `C50_negative_source_refuted`.

### C51 Exported quantities can be imported again without loss

* Files: `Quantity`.
* Method: export, then import into a space without quantities gives the same value at each place.
* Status: proved. Round trip of select_quantities2 and insert_quantities2; without the hypothesis that all attributes are registered it is false (C51_unregistered_refuted).
* Theorems without assumptions ("Closed under the global context"): `C51_round_trip`, `C51_unregistered_refuted`.

### C52 Structure follows the columns

* Files: `Columns`.
* Method: invariant over histories without dropped columns.
* Status: proved. Dropping label columns breaks it (two refutations).
* Theorems without assumptions ("Closed under the global context"): `C52_structure`, `C52_add_columns`, `C52_rename_label`, `C52_rename_many`, `C52_partition_calls`, `C52_dropped_column_refuted`, `C52_drop_fails_refuted`.

### C53 The ambiguous-fields text names exactly the columns outside the mapping's level

* Files: `Elements`, `BitFlags`.
* Method: bits of the level against column positions.
* Status: proved. Exact text proved for all levels and names; equal to the English claim whenever the level has a bit for each column, in particular up to eight columns. Refuted: more than eight columns, and the empty level.
* Theorems without assumptions ("Closed under the global context"): `C53_exact`, `C53_all_columns`, `C53_eight_columns`, `C53_many_columns_refuted`, `C53_empty_level_refuted`.

### C54 Upgrading a file is all or nothing, happens once and keeps everything else

* Files: `Migrations`, `Transaction`.
* Method: migration chain as a program; commit or untouched file.
* Status: proved. Findings: different domains can get the same name; a file with orphaned rows (see C28, C31) cannot be upgraded; files of later versions are accepted without an exception.
* Theorems without assumptions ("Closed under the global context"): `C54_all_or_nothing`, `C54_refused`, `C54_once`, `C54_rest`, `C54_properties`, `C54_other_version`, `C54_domain_refuted`, `C54_orphans_refuted`, `C54_later_version_refuted`.

### C55 An exported index can be loaded again without loss

* Files: `IndexCli`, `Streams`, `Db`.
* Method: the table characterised row by row; loading as a fold over rows with invariants, merging of weights by name and labels.
* Status: proved. Export: contents, order, success; import: own space, other space, rows with a code and a weight, for all policies; short rows refused; findings: the complete table is never accepted where a weight group is shared, a label column named like the code column is overwritten, empty lines are errors only in tables with codes. CSV quoting and the float text conversions are parameters (faithful).
* Theorems without assumptions ("Closed under the global context"): `C55_export`, `C55_import_is_operation`, `C55_short_row`, `C55_own_space`, `C55_by_code`, `C55_own_space_refuted`, `C55_other_space`, `C55_other_space_refuted`, `C55_code_column_refuted`, `C55_empty_line_refuted`.

### C56 The report on a loaded mapping counts truly

* Files: `MapStats`, `Elements`, `Db`.
* Method: counts as lengths of duplicate-free lists of the ids meant; the comparison of hashes justified by the invariant on recorded hashes.
* Status: proved. Counts, log and verdict for all honest histories; the numbers of the target need one session (finding for reopened spaces), the verdict needs source ids that are not negative (finding). Not modelled: texts of the messages, get_mapping_info_str.
* Theorems without assumptions ("Closed under the global context"): `C56_right_source`, `C56_source`, `C56_target`, `C56_log`, `C56_verified`, `C56_reopened_refuted`, `C56_negative_refuted`.

### C57 The shorthand for an edge is read as it is written

* Files: `EdgeText`, `Streams`.
* Method: the ways to match as an ordered list; membership equals the grammar, the order gives trimmed parts, and a description has one trimmed reading.
* Status: proved. The regular expression is modelled by its ordered backtracking matches; reading proved sound, complete and tidy, and the choice of the value column exact. Finding: names of white space only.
* Theorems without assumptions ("Closed under the global context"): `C57_read`, `C57_sound`, `C57_none`, `C57_value_column`, `C57_blank_names_refuted`.

### C58 Mappings loaded from a CSV table are the mappings of the table

* Files: `MapCli`, `Streams`, `Mapper`, `Elements`, `EdgeText`, `Db`.
* Method: the command composed of the models of C21, C22, C45, C47 and C57; the parser of numbers against a grammar by induction over the text; the loaded mappings by the specification of the matches; the round trip by reading every exported row back by its codes.
* Status: proved. Full statement proved for the model; six findings: a number with a thousands separator is cut, a load in both directions is not atomic, coarser levels are lost in the exported table, a label column named like the link is read for the values, an exported incomplete mapping passes the completeness check, and rows without a source can become mappings from every record.
* Theorems without assumptions ("Closed under the global context"): `C58_numbers`, `C58_links`, `C58_one_side`, `C58_all_or_nothing`, `C58_report`, `C58_report_true`, `C58_calls`, `C58_loaded`, `C58_complete`, `C58_understood_once`, `C58_by_code`, `C58_succeeds`, `C58_round_trip`, `C58_thousands_refuted`, `C58_not_atomic_refuted`, `C58_level_lost_refuted`, `C58_label_column_refuted`, `C58_incomplete_refuted`, `C58_no_source_refuted`.

### C59 Weights carried along a route of spaces are conserved

* Files: `WeightIter`, `Streams`, `Reader`, `Db`.
* Method: streams of tuples; one translation by the invariants on proportions and hashes of C31; routes by induction over the list of spaces; the sum of the weights by a permutation between tuples and stored weights.
* Status: proved. Exact rationals for floats. The spaces do not change while an iterator is read. The totals need all selectable links to be up to date; C59_stale_link_refuted shows that the code does not check this for links that are not the default, C59_undefined_refuted that a value on the undefined record is dropped by the next translation.
* Theorems without assumptions ("Closed under the global context"): `C59_select`, `C59_select_unknown`, `C59_select_total`, `C59_choice`, `C59_fails`, `C59_rows`, `C59_amounts`, `C59_totals`, `C59_target`, `C59_succeeds`, `C59_reader`, `C59_chain`, `C59_weights`, `C59_shape`, `C59_columns`, `C59_table`, `C59_table_error`, `C59_undefined_refuted`, `C59_stale_link_refuted`.

### C60 Loading a table between two spaces adds links whose mappings divide each row's value over the matching records

* Files: `LoadMap`, `Mapper`, `MapCli`, `Streams`, `EdgeText`, `Db`.
* Method: the stream of rows characterised as a table; matching by the invariant of a fold over the categories in their order; categories of the table against categories of the space through the bytes of their levels; shares by the lemmas of C22; the stored link through the models of C31 and C58.
* Status: proved. Exact rationals for floats; labels and header cells are texts; the two spaces are different files. Findings: loading is not atomic (links without mappings stay, one direction may be loaded), an unknown direction is accepted and loads nothing, rows that fit no record are not counted, a label equal to the name of its unknown column is passed over, blank rows fail only if domains are checked, negative values are accepted if they cancel, missing granularities fail only with two categories, an empty link name loads into another link.
* Theorems without assumptions ("Closed under the global context"): `C60_refused`, `C60_table_once`, `C60_wrong_domain`, `C60_usable`, `C60_matches`, `C60_no_category`, `C60_unknown`, `C60_counters`, `C60_shares`, `C60_same_rows`, `C60_both_ways`, `C60_one_side`, `C60_calls`, `C60_failed`, `C60_loaded`, `C60_succeeds`, `C60_not_atomic_refuted`, `C60_link_stays_refuted`, `C60_direction_refuted`, `C60_silent_refuted`, `C60_column_name_refuted`, `C60_blank_row_refuted`, `C60_negative_refuted`, `C60_no_granularity_refuted`, `C60_empty_name_refuted`.

### C61 Quantities loaded from a table are exactly what its rows say, and a written table is loaded again without loss

* Files: `QuantCli,`, `Quantity`.
* Method: A row is shown to be loaded exactly like the quantity it describes (its cells found by the last column of that name that the row reaches), so that the effects follow from the refinement proved for C34; the log by an invariant of the counters over the rows; errors by following every branch; the round trip by showing that each written row is about the place of its quantity and of no other, with the labels of the second space given by the names of the columns.
* Status: proved. Loading, acceptance, failures, log, writing and the round trip are proved for all histories and tables. Findings: a blank line or a value that is no number ends the command with an exception instead of the message; a table without registered attributes succeeds and loads nothing; a label named 'quantity' is not reserved and breaks the round trip; a table with a domain is refused by a space with another one or none.
* Theorems without assumptions ("Closed under the global context"): `C61_loaded`, `C61_accepts`, `C61_checked`, `C61_failure`, `C61_missing_column`, `C61_empty_file`, `C61_history`, `C61_log`, `C61_export`, `C61_export_unregistered`, `C61_round_trip`, `C61_blank_line_refuted`, `C61_not_a_number_refuted`, `C61_no_attributes_refuted`, `C61_label_quantity_refuted`, `C61_domain_refuted`.

### C62 Renaming and removing label columns for old versions of SQLite keeps every row, reference and id

* Files: `Legacy`, `Columns`.
* Method: the SQL statements of both functions are followed one after the other on a database of named tables with counters and references (create, fill, remove, rename); the three rebuilt tables are described by lookup lemmas, and the conditions are read off every branch that can fail; agreement with the newer calls through a view of the database as the state of C52.
* Status: proved. Full, for any state with well-formed label tables; _refuted theorems are findings (ids reused after a deletion, acceptance differing from the newer calls).
* Theorems without assumptions ("Closed under the global context"): `C62_rename`, `C62_rename_when`, `C62_drop`, `C62_drop_when`, `C62_all_or_nothing`, `C62_keys_enforced`, `C62_same_rename`, `C62_same_drop`, `C62_one_after_the_other_refuted`, `C62_next_id`, `C62_ids_go_on`, `C62_id_reused_refuted`, `C62_no_columns_refuted`.

### C63 Names of columns reach the database as they are, and label criteria find exactly the matching records

* Files: `Quote`.
* Method: SQLite's tokenizer as a state machine over characters; a quoted name takes it from between two tokens to the end of one name (induction over the name); statements by composition of literal texts (computed) and joined parts (induction over the list); the queries are parsed from these tokens and executed, names resolved without regard to case.
* Status: proved. Full for every statement that contains names of columns; _refuted theorems are findings (unknown columns in criteria, a space without columns).
* Theorems without assumptions ("Closed under the global context"): `C63_usable`, `C63_one_name`, `C63_different`, `C63_add_columns`, `C63_rename_columns`, `C63_drop_columns`, `C63_unique_indexes`, `C63_new_tables`, `C63_copied_columns`, `C63_refused`, `C63_distinct`, `C63_structure_update`, `C63_quantities_by_structure`, `C63_granularity`, `C63_filter`, `C63_filter_ids`, `C63_find_location`, `C63_by_structure`, `C63_unknown_name`, `C63_unknown_column_refuted`, `C63_no_columns_refuted`.

### C64 Files are opened by their own names, in the requested mode, and stay untouched otherwise

* Files: `FileOpen`.
* Method: UTF-8, percent quoting and SQLite's URI parser as functions on code points and bytes, with a round trip by induction; path normalisation commutes with encoding and agrees with the kernel's walk (induction over components, invariant of the file system); bind_file and read_file by cases over a file system given as a map of locations; sequences of uses and lists of backups by induction.
* Status: proved. Full for POSIX paths; _refuted theorems are findings (new file under a bare name, names that are not UTF-8, NUL, a backup over another node's file, outdated files read-only).
* Theorems without assumptions ("Closed under the global context"): `C64_uri`, `C64_encoding`, `C64_bind_existing`, `C64_bind_missing`, `C64_created_again`, `C64_bind_error`, `C64_read_only`, `C64_read`, `C64_recognised`, `C64_backup`, `C64_backup_name`, `C64_cli_errors`, `C64_bare_name_always_refused`, `C64_bare_name_refuted`, `C64_bytes_name_refuted`, `C64_nul_refuted`, `C64_backup_alias_refuted`, `C64_outdated_refuted`.

### C65 Attributes, selectors and properties are stored as JSON faithfully and compared as dicts

* Files: `Json`.
* Method: The JSON grammar of RFC 8259 as inductive relations; the scanner is proved equivalent to it (induction on fuel and on derivations), the writer's output derivable in it (induction on values); canonical texts by uniqueness of sorted permutations; repositories by an invariant over all reachable states.
* Status: proved. Full; _refuted theorems are findings (repeated names and NaN differ between the two trigger versions, split surrogate pairs, find_by_criteria without criteria or with an empty or, before SQLite 3.45, non-ASCII name, weight groups with empty selectors).
* Theorems without assumptions ("Closed under the global context"): `C65_grammar`, `C65_unambiguous`, `C65_last_wins`, `C65_roundtrip`, `C65_ascii`, `C65_canonical`, `C65_loaded`, `C65_triggers`, `C65_null`, `C65_portable`, `C65_portable_back_refuted`, `C65_link_selectors`, `C65_weight_selectors`, `C65_selectors_update`, `C65_weight_selectors_refuted`, `C65_user_properties`, `C65_groups`, `C65_add`, `C65_get_by_value`, `C65_get_or_add`, `C65_update`, `C65_delete`, `C65_criteria`, `C65_names`, `C65_criteria_refuted`, `C65_surrogates_refuted`, `C65_property_put`, `C65_property_add`, `C65_property_update`, `C65_property_delete`, `C65_keep`.

### C66 Tables sent through stdout and stdin arrive unchanged, and lists of names given as arguments mean what they say

* Files: `Csv`.
* Method: RFC 4180 as inductive relations; the line-by-line automaton is rewritten as a function on characters and followed through every derivation of cell, record and file; the writer's output is derivable; UTF-8 by arithmetic on quotients and remainders.
* Status: proved. Full; _refuted theorems are findings (a lone CR splits a row before Python 3.13, CR LF inside a cell becomes LF, a byte order mark stays in the first column name, a quoted name after comma and space is torn apart, a lone CR glues words).
* Theorems without assumptions ("Closed under the global context"): `C66_encoding`, `C66_rfc4180`, `C66_written`, `C66_roundtrip`, `C66_write_fails`, `C66_roundtrip_newlines`, `C66_injective`, `C66_total`, `C66_args`, `C66_args_clean`, `C66_args_names`, `C66_args_quoted`, `C66_args_wrapped`, `C66_args_wrapped_elsewhere`, `C66_cr_splits_row_refuted`, `C66_crlf_refuted`, `C66_bom_refuted`, `C66_args_quote_after_space_refuted`, `C66_args_cr_refuted`.

### C67 Administration commands change exactly what they say, and the exit code tells whether they did

* Files: `AdminCli`.
* Method: Commands as functions from a state to a state and an exit code, over the column model of C43/C52, the link model of C30 and weight groups of their own; each is compared with a relation between the states before and after; histories of weight commands by induction; file name extensions by uniqueness of the last dot.
* Status: proved. Full; _refuted theorems are findings (refused labels can end in a traceback, moving by 0 or after a rename ends in a traceback, a selector both present, added and removed stays, duplicate selectors through line feeds, add link in both directions is not atomic, remove link with an empty name removes the default link).
* Theorems without assumptions ("Closed under the global context"): `C67_add_attribute`, `C67_unknown_of`, `C67_add_partition`, `C67_add_label`, `C67_rename_label`, `C67_refusal_exit_code_refuted`, `C67_update_label`, `C67_update_attribute`, `C67_move_refuted`, `C67_weight_groups`, `C67_add_weight`, `C67_update_weight`, `C67_update_selectors`, `C67_update_selectors_refuted`, `C67_add_link`, `C67_remove_link`, `C67_remove_named_link`, `C67_add_link_both_refuted`, `C67_remove_link_empty_name_refuted`, `C67_create_file`, `C67_path_parts`.

### C68 The description of a data space says what is in it

* Files: `Info,`, `PartSort,`, `FormatGran,`, `Columns`.
* Method: The dict and both texts as functions of what the tables hold, with the models of C44 and C46 for order and granularities. Lists are compared with permutations, sortedness and one relation per line; unique readability by induction over the joined text; existence by an equivalence, and for histories by the structure theorem of C52.
* Status: proved. Full; _refuted theorems are findings (a renamed label still appears after labels were moved, no description after a column was dropped or the default was set to none, a group called None or with a remark in its name cannot be told apart, without styles attributes with and without data look alike).
* Theorems without assumptions ("Closed under the global context"): `C68_partitions`, `C68_definitions`, `C68_label_order`, `C68_weights`, `C68_links`, `C68_domain`, `C68_outcome`, `C68_history`, `C68_history_labels`, `C68_weights_readable`, `C68_links_readable`, `C68_repr_readable`, `C68_command`, `C68_attributes`, `C68_renamed_label_refuted`, `C68_dropped_column_refuted`, `C68_default_none_refuted`, `C68_none_refuted`, `C68_remark_refuted`, `C68_plain_loaded_refuted`.

### C69 Every level is stored with its own granularity

* Files: `StoredGran,`, `Db,`, `Granularity`.
* Method: The structure table with its granularities added to the model of C06-C09 (every call of it keeps its meaning) and the computation of C04-C05. The specification speaks of any division of the records into classes; an invariant over all calls keeps marks and labels together, a frame argument shows that the calls that do not recompute leave the records alone, and the rest follows from the theorems of C04.
* Status: proved. Full; _refuted theorems are findings (insert_index with on_label_conflict='replace' and drop_index_columns leave granularities that are wrong).
* Theorems that assume the axioms of the standard reals (see above): `C69_granularity`, `C69_determined`, `C69_healed`, `C69_failed`, `C69_rows`, `C69_levels`, `C69_kept`, `C69_order`, `C69_finest`, `C69_replace_refuted`, `C69_drop_refuted`.

### C70 A space always has either no default weight group or one that exists

* Files: `WGroup,`, `Db`.
* Method: A small abstract machine over names (`follows` in WGroup_Spec.v) and a refinement proof: every call of the model of C06-C09 takes a space that shows a view to one that shows the next view, with the outcome the machine gives. Calls that are not about groups are sequences of primitive changes that keep groups and default.
* Status: proved. Full; _refuted theorems are findings (a group cannot be dropped while no default is set, a first group made by insert_weights is not the default, choosing an unknown name breaks get_default_weight_group, a default set to a dropped group passes to the next group added).
* Theorems without assumptions ("Closed under the global context"): `C70_default`, `C70_calls`, `C70_shows`, `C70_by_name`, `C70_choose`, `C70_rest`, `C70_drop`, `C70_drop_refuted`, `C70_first_refuted`, `C70_choose_refuted`, `C70_stale_refuted`.

### C71 The tables of a mapping show every pair and every unmatched record once

* Files: `MapTable,`, `Elements,`, `Db`.
* Method: Rows are taken apart into a record of parts whose widths are proved (so that the decomposition is unique), and related one by one (`Forall2`) to the elements specified for C45; the rows of select_mappings are grouped by record; the agreement follows from both.
* Status: proved. Full; the _refuted theorem is a finding (with the link name left out get_mapping always fails, also where there is a default link).
* Theorems without assumptions ("Closed under the global context"): `C71_table`, `C71_readable`, `C71_covers`, `C71_no_link`, `C71_select`, `C71_select_error`, `C71_agree`, `C71_default_refuted`.

### C72 The text about a mapping has the right numbers

* Files: `MapTable,`, `MapStats,`, `Db`.
* Method: The numbers are those proved for C56; the text is taken apart into lines whose numerals are read back (`number`), and the names of the spaces are specified without slicing.
* Status: proved. Full; the _refuted theorem is a finding (for a source that was never stored the text says that records no longer exist in None).
* Theorems without assumptions ("Closed under the global context"): `C72_text`, `C72_error`, `C72_none_refuted`.

### C73 The row counts that a changing call reports are true

* Files: `Report,`, `Db`.
* Method: The row loops with their counters are proved to be the calls of the other claims (`C73_same_calls`); a relation `story` says row by row what may be counted given the space before and after the row, and the numbers follow by induction over it.
* Status: proved. Full for the seven calls with rows; the _refuted theorems are findings (a row of update_index with unchanged labels counts as merged and updated although the record is deleted; a row that describes a stored mapping in every field may be reported as having a mismatched value).
* Theorems without assumptions ("Closed under the global context"): `C73_same_calls`, `C73_delete_index`, `C73_update_index`, `C73_update_weights`, `C73_delete_weights`, `C73_insert_mappings`, `C73_update_mappings`, `C73_delete_mappings`, `C73_silent`, `C73_warning`, `C73_updated_refuted`, `C73_value_mismatch_refuted`.

### C74 The numbers that the loading calls log are true

* Files: `Loaded,`, `Report,`, `Db`.
* Method: The row loops with their counters are proved to be the calls of the other claims (`C74_same_calls`); the relation `story` says row by row what may be counted given the space before and after the row (nested for the weight cells of a row of insert_index), and the numbers and logs follow by induction over it.
* Status: proved. Full; the _refuted theorem is a finding (a row of insert_index for existing labels that loads nothing is counted nowhere, so the logged numbers do not add up to the number of rows).
* Theorems without assumptions ("Closed under the global context"): `C74_same_calls`, `C74_insert_index`, `C74_insert_weights`, `C74_insert_mappings2`, `C74_logs`, `C74_uncounted_refuted`.

### C75 The tables of stored quantities are complete and rectangular

* Files: `QTable,`, `Quantity`.
* Method: The generators are modelled as the yielded rows and the exception that ended them; the rows are related to the quantities by the lists of C36 and the tables' invariants.
* Status: proved. Full; the _refuted theorem is a finding (header=False makes select_quantities_without_index and select_unmatched_quantities fail).
* Theorems without assumptions ("Closed under the global context"): `C75_all`, `C75_left_out`, `C75_no_header`, `C75_unbound`, `C75_damaged`, `C75_header_refuted`.

## Findings

Each of these is a theorem ending in `_refuted`: the natural reading of the documentation or of the property is false of the code as modelled. The notes above say what holds instead.

* `C02_smallest_cover_refuted` (C02)
* `C06_bytes_equality_refuted` (C06)
* `C07_nested_is_refuted` (C07)
* `C09_unicode_refuted` (C09)
* `C09_specificity_refuted` (C09)
* `C10_round_trip_refuted` (C10)
* `C10_nested_is_refuted` (C10)
* `C10_unquoted_value_refuted` (C10)
* `C13_negative_weights_refuted` (C13)
* `C14_mixed_signs_refuted` (C14)
* `C14_wrong_total_refuted` (C14)
* `C16_undefined_refuted` (C16)
* `C16_log_refuted` (C16)
* `C18_dropped_refuted` (C18)
* `C21_row_dropped_refuted` (C21)
* `C21_limit_twice_refuted` (C21)
* `C22_fully_matched_refuted` (C22)
* `C23_masked_refuted` (C23)
* `C23_swallowed_refuted` (C23)
* `C23_unmanaged_refuted` (C23)
* `C24_masked_refuted` (C24)
* `C24_interrupt_refuted` (C24)
* `C28_orphan_weights_refuted` (C28)
* `C29_empty_index_refuted` (C29)
* `C29_reopened_refuted` (C29)
* `C31_orphan_mappings_refuted` (C31)
* `C32_unchanged_row_refuted` (C32)
* `C36_undefined_refuted` (C36)
* `C36_reopened_refuted` (C36)
* `C37_iterator_refuted` (C37)
* `C37_same_name_refuted` (C37)
* `C37_overwritten_refuted` (C37)
* `C37_extra_cells_refuted` (C37)
* `C37_extra_keys_refuted` (C37)
* `C37_no_columns_refuted` (C37)
* `C37_empty_refuted` (C37)
* `C38_canonical_refuted` (C38)
* `C38_collision_refuted` (C38)
* `C38_struct_refuted` (C38)
* `C39_stale_display_refuted` (C39)
* `C41_same_search_refuted` (C41)
* `C42_null_target_refuted` (C42)
* `C42_null_blocks_refuted` (C42)
* `C42_text_quantity_refuted` (C42)
* `C44_argument_kept_refuted` (C44)
* `C45_dishonest_flag_refuted` (C45)
* `C45_warning_refuted` (C45)
* `C45_dangling_target_refuted` (C45)
* `C46_zero_text_refuted` (C46)
* `C46_zero_distinct_refuted` (C46)
* `C46_negative_refuted` (C46)
* `C46_nan_refuted` (C46)
* `C47_none_row_refuted` (C47)
* `C47_same_side_refuted` (C47)
* `C47_tuple_header_refuted` (C47)
* `C47_empty_input_refuted` (C47)
* `C48_hidden_mapping_refuted` (C48)
* `C48_reify_partial_effect_refuted` (C48)
* `C49_reopened_inherits_refuted` (C49)
* `C50_negative_source_refuted` (C50)
* `C51_unregistered_refuted` (C51)
* `C52_dropped_column_refuted` (C52)
* `C52_drop_fails_refuted` (C52)
* `C53_many_columns_refuted` (C53)
* `C53_empty_level_refuted` (C53)
* `C54_domain_refuted` (C54)
* `C54_orphans_refuted` (C54)
* `C54_later_version_refuted` (C54)
* `C55_own_space_refuted` (C55)
* `C55_other_space_refuted` (C55)
* `C55_code_column_refuted` (C55)
* `C55_empty_line_refuted` (C55)
* `C56_reopened_refuted` (C56)
* `C56_negative_refuted` (C56)
* `C57_blank_names_refuted` (C57)
* `C58_thousands_refuted` (C58)
* `C58_not_atomic_refuted` (C58)
* `C58_level_lost_refuted` (C58)
* `C58_label_column_refuted` (C58)
* `C58_incomplete_refuted` (C58)
* `C58_no_source_refuted` (C58)
* `C59_undefined_refuted` (C59)
* `C59_stale_link_refuted` (C59)
* `C60_not_atomic_refuted` (C60)
* `C60_link_stays_refuted` (C60)
* `C60_direction_refuted` (C60)
* `C60_silent_refuted` (C60)
* `C60_column_name_refuted` (C60)
* `C60_blank_row_refuted` (C60)
* `C60_negative_refuted` (C60)
* `C60_no_granularity_refuted` (C60)
* `C60_empty_name_refuted` (C60)
* `C61_blank_line_refuted` (C61)
* `C61_not_a_number_refuted` (C61)
* `C61_no_attributes_refuted` (C61)
* `C61_label_quantity_refuted` (C61)
* `C61_domain_refuted` (C61)
* `C62_one_after_the_other_refuted` (C62)
* `C62_id_reused_refuted` (C62)
* `C62_no_columns_refuted` (C62)
* `C63_unknown_column_refuted` (C63)
* `C63_no_columns_refuted` (C63)
* `C64_bare_name_refuted` (C64)
* `C64_bytes_name_refuted` (C64)
* `C64_nul_refuted` (C64)
* `C64_backup_alias_refuted` (C64)
* `C64_outdated_refuted` (C64)
* `C65_portable_back_refuted` (C65)
* `C65_weight_selectors_refuted` (C65)
* `C65_criteria_refuted` (C65)
* `C65_surrogates_refuted` (C65)
* `C66_cr_splits_row_refuted` (C66)
* `C66_crlf_refuted` (C66)
* `C66_bom_refuted` (C66)
* `C66_args_quote_after_space_refuted` (C66)
* `C66_args_cr_refuted` (C66)
* `C67_refusal_exit_code_refuted` (C67)
* `C67_move_refuted` (C67)
* `C67_update_selectors_refuted` (C67)
* `C67_add_link_both_refuted` (C67)
* `C67_remove_link_empty_name_refuted` (C67)
* `C68_renamed_label_refuted` (C68)
* `C68_dropped_column_refuted` (C68)
* `C68_default_none_refuted` (C68)
* `C68_none_refuted` (C68)
* `C68_remark_refuted` (C68)
* `C68_plain_loaded_refuted` (C68)
* `C69_replace_refuted` (C69)
* `C69_drop_refuted` (C69)
* `C70_drop_refuted` (C70)
* `C70_first_refuted` (C70)
* `C70_choose_refuted` (C70)
* `C70_stale_refuted` (C70)
* `C71_default_refuted` (C71)
* `C72_none_refuted` (C72)
* `C73_updated_refuted` (C73)
* `C73_value_mismatch_refuted` (C73)
* `C74_uncounted_refuted` (C74)
* `C75_header_refuted` (C75)

## Tests of the theorems

`seeded/LOG.jsonl` lists wrong programs: one realistic edit of a model definition each, the claim it breaks, the theorems whose proofs failed, and the theorems that were tightened because of it.
