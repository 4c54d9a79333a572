# A Rocq (Coq 8.16.1) model of ranx and its properties

## 1. How the code is modelled

The model is a set of shallow, total Gallina functions that follow the Python functions branch by
branch.  Exceptions are values (`result A := Ok a | Err e`), objects that are changed in place are
returned.  Every definition cites the file and lines of `/repo` it models and says where it
simplifies.  Model files (`M_*.v`, `Base.v`, `Dict.v`, `Num.v`, `Env.v`) contain no proofs;
independent specifications are in `Spec_*.v`, proofs in `P_*.v`; the property theorems, with
`Print Assumptions` and non-vacuity examples, are in `T_*.v` (and `Ex_*.v`, `*Ex.v`).

* **Numbers** (`Num.v`): a class `Num` of the float operations the code uses.  Instances: `NumR`
  (real numbers, used by the numeric theorems) and `NumSF_with log log2 pow` (IEEE binary64 as the
  standard library's `SpecFloat`, executable inside the kernel, used by the binary64 theorems C76-C81 and by
  the float-specific refutations).  Structural theorems (documents, queries, order of keys, schedules,
  errors) are proved for every instance.  Theorems over `NumR` say nothing about rounding; C76-C81 do.
* **Dictionaries** (`Dict.v`): insertion-ordered association lists, for Python dicts and numba typed dicts.
  Ids are byte strings (UTF-8; byte order = code point order).
* **Typed lists**: a numba typed list of `(n,2)` float arrays is `list (list (Z * F))`; the id column is the
  document hash rounded to 53 bits.
* **Environment** (`Env.v`), universally quantified, constrained by `env_ok`: `hash`, `np.argsort` (any sorting
  permutation, ties arbitrary, arbitrary permutation if there is a NaN), the `prange` schedule (any permutation
  of the iterations), the iteration order of Python sets.  A concrete environment that satisfies `env_ok` is
  exhibited in `EnvEx.v`.
* **Downloads** (`M_Download.v`): a transition system of processes, files, a server; kills at any point.

## 2. What is modelled and what is not

| source | model | not modelled |
|--------|-------|--------------|
| `data_structures/common.py`, `generic.py` | `M_Common.v` | numba's typing and compilation |
| `data_structures/qrels.py`, `run.py` | `M_Qrels.v`, `M_Run.v`, `M_History.v`, `M_Container.v`, `M_Judgments.v`, `M_Heap.v`, `M_IO.v` | the library `ir_datasets` (its answer is a parameter), `__repr__`/`__str__`, document ids that end in NUL characters (numpy's `<U` arrays strip them); the run's `metadata` attribute except in C72 |
| `data_structures/frozenset_dict.py`, `report.py`, `optimization_report.py` | `M_Compare.v`, `M_Report.v`, `M_Optimize.v` | tabulate's layout of the cells, `show_percentages` text beyond the cells |
| `metrics/*.py` | `M_Metrics.v` | - |
| `normalization/*.py`, `meta/normalize.py` | `M_Norm.v` | - |
| `fusion/*.py`, `meta/fuse.py` | `M_Fusion.v`, `M_Train.v` | - |
| `fusion_optimization/*.py`, `meta/optimize_fusion.py` | `M_Optimize.v` | progress bars |
| `meta/evaluate.py`, `utils.py` | `M_Evaluate.v`, `M_Strings.v`, `M_Text.v`, `M_Utils.v` | - |
| `meta/compare.py`, `statistical_tests/*.py` | `M_Compare.v` | the p-values of scipy's t-test and Tukey HSD (parameters) |
| `meta/plot.py` | `M_Plot.v` | the drawing itself |
| `io.py`, `downloader.py`, `ranxhub.py` | `M_IO.v`, `M_Paths.v`, `M_Download.v`, `M_Hub.v` | byte formats of orjson, cbor2, lz4, gzip, parquet, YAML (abstract values that are read back); symbolic links; disk failures; the progress bar |

The thin `*_parallel` wrappers that only repeat a loop are covered by shared definitions (`parallel`, `prange`).

## 3. Property by property

Theorems without a mark are closed under the global context (`Print Assumptions` prints nothing but
that); ² and ³ are the axiom lists of section 4.

**C01 Building a Qrels/Run from a dict loses and invents nothing** (proved; `T_DS.v`)  
*Model:* `create_and_sort`, `Run_from_dict`, `Qrels_from_dict` over arbitrary dicts of dicts, `argsort` any sorting permutation  
*Proof:* each query's documents are a permutation of the input (lookup equality) and strongly sorted; induction over the dict  
*Theorems:* `C01_run_from_dict`, `C01_qrels_from_dict`³.

**C02 Any history of edits behaves like a plain nested map** (proved; `T_DS.v`)  
*Model:* histories of calls (`M_History.v`: add, add_score, add_multi, sort, keep, remove, set_relevance_level ...) on the modelled objects  
*Proof:* refinement against an independent nested-map specification (`Spec_Hist.v`), induction over the history  
*Theorems:* `C02_run_history_is_a_map`, `C02_qrels_history_is_a_map`, `C02_calls_do_not_raise`.

**C03 A container that claims to be sorted is sorted** (proved; `T_DS.v`)  
*Model:* the same histories; the `sorted` flag is part of the object  
*Proof:* invariant by induction over the history; counter-example history for a failed add_multi by computation  
*Theorems:* `C03_run_sorted_flag`, `C03_qrels_sorted_flag`³, `C03_run_sorted_flag_from_dict`, `C03_metrics_read_sorted_rankings`, `C03_after_failed_add_multi_refuted`.

**C04 sort() only reorders** (proved; `T_DS.v`)  
*Model:* `Run.sort`/`Qrels.sort` via `sort_dict`  
*Proof:* permutation + sortedness; a sorted ranking without ties is a fixed point  
*Theorems:* `C04_run_sort_permutes`, `C04_run_sort_idempotent`³, `C04_qrels_sort_permutes`³.

**C05 make_comparable aligns a run with the qrels** (proved; `T_DS.v`)  
*Model:* `Run.make_comparable`  
*Proof:* lookup-by-lookup comparison of key sets and rankings  
*Theorems:* `C05_make_comparable`.

**C06 set_relevance_level shifts judgments so that level 1 means rel_lvl** (proved; `T_DS.v`)  
*Model:* `_set_relevance_level` as a `prange` under any schedule  
*Proof:* fold over an arbitrary permutation of the queries, pointwise formula  
*Theorems:* `C06_set_relevance_level`.

**C07 Evaluating with set_relevance_level(l) and with the -l suffix agree for binary metrics** (proved; `T_Evaluate3.v`)  
*Model:* C06 + `evaluate` with the parsed `-l` suffix  
*Proof:* both sides are reduced to the document-level specification; graded metrics refuted on a concrete query  
*Theorems:* `C07_relevance_level`³, `C07_graded_refuted`³.

**C08 TREC qrels files round-trip** (proved; `T_IO.v`)  
*Model:* the TREC writer to characters, `open`/`split`/`int`, line iteration  
*Proof:* round trip by induction on the written text; refutation by an id with a line end  
*Theorems:* `C08_round_trip`, `C08_text`, `C08_no_judgment`, `C08_any_id_refuted`³.

**C09 TREC run files round-trip** (proved; `T_IO2.v`)  
*Model:* the same for runs, float text is a parameter  
*Proof:* as C08; the hypothesis is that the scores at hand are printed without blanks and read back  
*Theorems:* `C09_round_trip`, `C09_text`, `C09_no_result`, `C09_no_name_refuted`, `C09_name_with_blank_refuted`.

**C10 File kind is inferred from the extension and anything else is rejected** (proved; `T_IO3.v`)  
*Model:* `get_file_kind`, `os.path.splitext` on strings, the kind dispatch of save/from_file  
*Proof:* case analysis over the kinds and a characterisation of `splitext`  
*Theorems:* `C10_rejected`, `C10_save`, `C10_load`, `C10_parquet_gz_never_read_back`, `C10_extension`.

**C11 DataFrame export/import round-trips** (proved; `T_IO4.v`)  
*Model:* data frames as columns, `groupby`, `from_df`, `to_dataframe`, parquet  
*Proof:* round trip by induction on the rows  
*Theorems:* `C11_from_df`, `C11_bad_columns`, `C11_round_trip`, `C11_no_document`, `C11_parquet`, `C11_pd_kwargs_refuted`, `C11_empty_query_refuted`.

**C12 A container cannot be built from a dict without documents** (proved; `T_DS.v`)  
*Model:* `create_and_sort`'s empty case  
*Proof:* iff, by case analysis  
*Theorems:* `C12_from_dict_fails_iff_no_document`.

**C13 Metric strings denote metric, cut-off and relevance level** (proved; `T_Parse.v`)  
*Model:* `extract_metric_and_params`, `str.split`, `int()`, `float()`, `str(int)` on characters  
*Proof:* parser/printer round trip for every number (decimal representation by induction)  
*Theorems:* `C13_metric_strings`, `C13_rbp_strings`, `C13_rbp_needs_persistence`, `C13_every_number`.

**C14 Unknown metrics are rejected** (proved; `T_Parse.v`, `T_Parse2.v`)  
*Model:* the same parser and `metric_switch`  
*Proof:* complete case analysis of the accepted names  
*Theorems:* `C14_unknown_metric`, `C14_unknown_name`, `C14_known_names`, `C14_r_precision_alias_refuted`, `C14_negative_cutoff`.

**C15 evaluate scores every query against its own judgments** (proved; `T_Evaluate.v`)  
*Model:* `evaluate` over an input sum type (objects, dicts, typed lists)  
*Proof:* pairing lemma for objects; refutation for dicts in different orders by computation  
*Theorems:* `C15_paired_by_position`³, `C15_own_judgments`³, `C15_dict_order_refuted`³.

**C16 Mismatching queries are refused** (proved; `T_Evaluate.v`)  
*Model:* the key check of `evaluate`  
*Proof:* set equality of keys iff no AssertionError  
*Theorems:* `C16_mismatch_refused`, `C16_match_accepted`³, `C16_make_comparable_accepted`³, `C16_unchecked_refuted`³.

**C17 Scores do not depend on the thread schedule** (proved; `T_Metrics.v`)  
*Model:* every `prange` takes an arbitrary permutation  
*Proof:* results of disjoint writes are schedule-independent (`prange_r` lemma), lifted through `evaluate`  
*Theorems:* `C17_schedule_independent`.

**C18 evaluate returns the mean and saves exactly the per-query scores** (proved; `T_Evaluate.v`)  
*Model:* `evaluate` with all flags, `run.scores`, `run.mean_scores`  
*Proof:* composition of the metric theorems; equations for the returned value and the modified run  
*Theorems:* `C18_evaluate`³.

**C19 evaluate with a single metric and return_mean=False returns the score array** (proved; `T_Evaluate2.v`)  
*Model:* the return branches of `evaluate`  
*Proof:* case analysis; refutation of the documented return type  
*Theorems:* `C19_array_when_saved`³, `C19_unsaved`³, `C19_array_refuted`³.

**C20 Metrics depend only on the ranking, not on the score values** (proved; `T_Evaluate2.v`)  
*Model:* metrics after `Run.sort`  
*Proof:* the metric depends on the ordered documents only  
*Theorems:* `C20_only_ranking_matters`³.

**C21 hits, hit_rate, precision and recall compute their definitions** (proved; `T_Metrics.v`)  
*Model:* `_hits`, `_hit_rate`, `_precision`, `_recall` with binary search-free membership as in the code, 4-argument lifting  
*Proof:* equality with counting definitions in `Spec_Metrics.v` (over document ids, not rows)  
*Theorems:* `C21_hits`³, `C21_hit_rate`³, `C21_precision`³, `C21_recall`³.

**C22 f1 is the harmonic mean of precision and recall** (proved; `T_Metrics.v`)  
*Model:* `_f1`  
*Proof:* real arithmetic on C21  
*Theorems:* `C22_f1`³.

**C23 r-precision is precision at the number of relevant documents** (proved; `T_Metrics.v`)  
*Model:* `_r_precision`  
*Proof:* counting, cut at the number of relevant documents  
*Theorems:* `C23_r_precision`³, `C23_r_precision_is_recall`³.

**C24 mrr is the reciprocal of the first relevant rank** (proved; `T_Metrics.v`)  
*Model:* `_reciprocal_rank`  
*Proof:* induction over the ranking  
*Theorems:* `C24_mrr`³.

**C25 map averages the precision at each relevant document** (proved; `T_Metrics.v`)  
*Model:* `_average_precision`  
*Proof:* loop invariant (hits so far, precision sum)  
*Theorems:* `C25_map`³.

**C26 dcg and ndcg compute their definitions in both formulations** (proved; `T_Metrics.v`)  
*Model:* `_dcg`, `_ndcg` (+ Burges), ideal gains from the sorted judgments  
*Proof:* sums over positions; ideal list is the sorted list of gains  
*Theorems:* `C26_dcg`³, `C26_dcg_burges`³, `C26_ndcg`³, `C26_ndcg_burges`³.

**C27 bpref computes its definition when it is defined** (proved; `T_Metrics.v`)  
*Model:* `_bpref`  
*Proof:* loop invariant; refutations for undefined queries  
*Theorems:* `C27_bpref`³, `C27_bpref_no_relevant`³, `C27_bpref_defined_refuted`.

**C28 rbp computes the graded rank-biased precision** (proved; `T_Metrics.v`)  
*Model:* `_rank_biased_precision`  
*Proof:* geometric sums; the graded variant as coded  
*Theorems:* `C28_rbp`³, `C28_rbp_binary`³, `C28_rbp_at_least_binary`³, `C28_rbp_graded_refuted`³.

**C29 Interpolated precision at recall is monotone and correct** (proved; `T_Metrics.v`)  
*Model:* `_interpolated_precision_at_recall`  
*Proof:* maximum over later positions; binary64 cut-off counter-example by computation  
*Theorems:* `C29_interpolated`³, `C29_cutoff`, `C29_monotone_bounded`³, `C29_float_cutoff_refuted`.

**C30 Normalised metrics stay in [0,1]** (proved; `T_Metrics2.v`)  
*Model:* all metrics  
*Proof:* inequalities over the document-level definitions; rearrangement inequality for ndcg  
*Theorems:* `C30_bounded`³, `C30_bpref_bounded`³, `C30_rbp_bounded`³, `C30_mean_bounded`³.

**C31 Ideal rankings score 1** (proved; `T_Metrics2.v`)  
*Model:* all metrics on ideal rankings  
*Proof:* equalities from C21-C29  
*Theorems:* `C31_ideal_is_one`³, `C31_no_relevant_is_zero`³.

**C32 Cut-offs only look at the top of the ranking and grow monotonically** (proved; `T_Metrics2.v`)  
*Model:* cut-offs of all metrics  
*Proof:* firstn lemmas and monotone sums  
*Theorems:* `C32_only_top_matters`³, `C32_monotone_in_k`³, `C32_zero_is_full_length`³.

**C33 Moving a relevant document up never hurts** (proved; `T_Metrics2.v`)  
*Model:* adjacent swap of documents  
*Proof:* case analysis on relevance of the swapped pair  
*Theorems:* `C33_swap_up`³.

**C34 Appending non-relevant documents at the end changes nothing but uncut precision** (proved; `T_Metrics2.v`)  
*Model:* appended rows  
*Proof:* sum over an extended list; `precision` without cut-off excepted  
*Theorems:* `C34_append_nonrelevant`³.

**C35 Documents are identified only through a rounded hash** (proved; `T_Metrics2.v`)  
*Model:* `round53` (int64 to float64), `doc_key`  
*Proof:* number theory of rounding; collisions exhibited  
*Theorems:* `C35_far_hashes`, `C35_small_hashes`, `C35_collision`, `C35_hash_injective_refuted`.

**C36 Hit, unjudged and non-relevant lists classify every retrieved document** (proved; `T_Metrics2.v`)  
*Model:* the three list functions  
*Proof:* pointwise classification, partition up to permutation  
*Theorems:* `C36_lists`³, `C36_partition`³.

**C37 Normalisation keeps queries, documents and the run name** (proved; `T_Closure.v`, `T_Norm.v`)  
*Model:* `normalization/*` as parallel loops over queries  
*Proof:* map over the queries under any schedule  
*Theorems:* `C37_norm_keeps`³, `C37_schedule_independent`³, `C37_sorted_flag`³.

**C38 min-max normalisation maps to [0,1] and preserves order** (proved; `T_Norm2.v`)  
*Model:* `_min_max_norm` (+ inverted)  
*Proof:* order and range over the reals  
*Theorems:* `C38_min_max`³, `C38_min_max_inverted`³.

**C39 max, sum and zmuv normalisations compute their formulas and preserve order** (proved; `T_Norm2.v`)  
*Model:* `_max_norm`, `_sum_norm`, `_zmuv_norm`  
*Proof:* formulas and monotonicity over the reals  
*Theorems:* `C39_max`³, `C39_sum`³, `C39_zmuv`³, `C39_max_unbounded_below`³.

**C40 rank normalisation depends only on positions** (proved; `T_Norm2.v`)  
*Model:* `_rank_norm`  
*Proof:* positions of a sorted list; refutation for unsorted runs  
*Theorems:* `C40_rank`³, `C40_unsorted_refuted`³.

**C41 borda normalisation scores all candidates of all runs** (proved; `T_Norm3.v`)  
*Model:* `_borda_norm` over several runs  
*Proof:* counting candidates; refutation for different query orders  
*Theorems:* `C41_borda`³, `C41_borda_sorted`³, `C41_misaligned_refuted`³.

**C42 Fusion returns exactly the union of the documents** (proved; `T_Fusion4.v`)  
*Model:* all fusion methods via `fuse`  
*Proof:* key set of the accumulating dict, loop invariants  
*Theorems:* `C42_fuse_union`³.

**C43 Comb fusions compute their aggregation formula** (proved; `T_Fusion.v`)  
*Model:* `comb_*`  
*Proof:* loop invariant: the accumulated list of a document = its scores in the runs  
*Theorems:* `C43_comb_sum`³, `C43_comb_max`³, `C43_comb_min`³, `C43_comb_med`³, `C43_comb_anz`³, `C43_comb_mnz`³, `C43_comb_gmnz`³, `C43_comb_max_sentinel`³, `C43_comb_min_sentinel`³.

**C44 Rank-based fusions compute their formula from ranks** (proved; `T_Fusion.v`)  
*Model:* `isr`, `log_isr`, `logn_isr`, `rrf`, `rbc`  
*Proof:* as C43 with ranks  
*Theorems:* `C44_isr`³, `C44_log_isr`³, `C44_logn_isr`³, `C44_logn_isr_rejects`³, `C44_rrf`³, `C44_rbc`³.

**C45 Weighted fusions compute their formula and generalise the unweighted ones** (proved; `T_Fusion.v`, `T_Fusion6.v`)  
*Model:* `wsum`, `wmnz`, `mixed`  
*Proof:* as C43 with weights; specialisation to unit weights  
*Theorems:* `C45_wsum`³, `C45_wmnz`³, `C45_mixed`³, `C45_unit_weights`³, `C45_too_few_weights`³.

**C46 BordaFuse distributes points by position** (proved; `T_Fusion2.v`, `T_Fusion6.v`)  
*Model:* `bordafuse`, `weighted_bordafuse`  
*Proof:* points by position over the candidate set  
*Theorems:* `C46_bordafuse`³, `C46_weighted_bordafuse`³, `C46_misaligned_refuted`³.

**C47 Condorcet fusion follows the majority comparison** (proved; `T_Fusion3.v`, `T_Fusion6.v`)  
*Model:* `condorcet`, `weighted_condorcet`; CPython's sort is any `sorter_ok` function  
*Proof:* majority relation of adjacent documents; refutation of unanimity by a cyclic profile  
*Theorems:* `C47_condorcet`³, `C47_weighted_condorcet`³, `C47_scores_irrelevant`³, `C47_unanimity_refuted`³.

**C48 Fusion is independent of the order of the runs** (proved; `T_Fusion5.v`)  
*Model:* permuted run lists  
*Proof:* order-independence of the aggregations over the reals  
*Theorems:* `C48_run_order`³, `C48_weighted_run_order`³, `C48_normalised_order`³.

**C49 Fusion rewards agreement: monotone in each input score** (proved; `T_Fusion5.v`)  
*Model:* two run lists that differ in one score  
*Proof:* monotonicity of each aggregation  
*Theorems:* `C49_monotone`³.

**C50 Fused runs are sorted** (proved; `T_Closure.v`, `T_Fusion4.v`)  
*Model:* `fuse` result  
*Proof:* C04 on the fused dict  
*Theorems:* `C50_fuse_sorted`³, `C50_sorted_flag`³.

**C51 fuse checks its inputs before fusing** (proved; `T_Fusion4.v`, `T_Keywords.v`)  
*Model:* `fuse`'s checks and keyword dispatch  
*Proof:* case analysis over methods, norms and keyword sets  
*Theorems:* `C51_few_runs`³, `C51_different_queries`³, `C51_unknown_norm`³, `C51_unknown_method`³, `C51_dispatch`³, `C51_unexpected_keyword`³, `C51_missing_keyword`³, `C51_name`³, `C51_integer_value`³.

**C52 Rank-based processing of unsorted runs uses insertion order** (proved; `T_Fusion6.v`)  
*Model:* enumeration of the typed dict by the rank-based methods  
*Proof:* insertion order vs score order; refutation  
*Theorems:* `C52_ranked_by_score`³, `C52_sort_ranks_by_score`³, `C52_add_score_rank`³, `C52_unsorted_refuted`³.

**C53 Trained probabilities are relative frequencies** (proved; `T_Train.v`, `T_Train4.v`)  
*Model:* the four training loops (`M_Train.v`)  
*Proof:* counts divided by counts, loop invariants  
*Theorems:* `C53_posfuse_train`³, `C53_slidefuse_train`³, `C53_probfuse_train`³, `C53_segfuse_train`³, `C53_unchecked_refuted`³.

**C54 SlideFuse averages over a window that stays inside the ranking** (proved; `T_Train2.v`)  
*Model:* `posfuse`, `slidefuse`  
*Proof:* window sums, bounds  
*Theorems:* `C54_posfuse`³, `C54_slidefuse`³, `C54_window_range`², `C54_slidefuse_bounds`³, `C54_zero_window`³.

**C55 Segments partition every ranking** (proved; `T_Train3.v`)  
*Model:* segment sizes and bounds of `probfuse`, `segfuse`  
*Proof:* partition by integer arithmetic (div/mod)  
*Theorems:* `C55_probfuse_partition`, `C55_segfuse_partition`, `C55_probfuse`³, `C55_segfuse`³.

**C56 MAPFuse and BayesFuse scores follow their formulas** (proved; `T_Train.v`, `T_Train2.v`, `T_Train3.v`)  
*Model:* `mapfuse`, `bayesfuse`  
*Proof:* as C53  
*Theorems:* `C56_mapfuse_train`³, `C56_bayesfuse_train`³, `C56_mapfuse`³, `C56_bayesfuse`³, `C56_bayesfuse_out_of_range`³.

**C57 optimize_fusion returns a best configuration of its grid** (proved; `T_Optimize.v`, `T_Optimize2.v`, `T_Optimize3.v`, `T_Optimize4.v`)  
*Model:* all optimisers, `optimize_fusion`  
*Proof:* fold invariant of the best trial; grids as explicit lists  
*Theorems:* `C57_best_trial`, `C57_slidefuse`, `C57_probfuse`, `C57_training_only`, `C57_refused`, `C57_unknown_method`, `C57_float_grid`³, `C57_int_grid`, `str_int_inj`, `C57_report_refused`, `C57_which_error`.

**C58 The weight grid contains every convex combination on the step lattice** (proved; `T_Optimize3.v`)  
*Model:* `optimize_weights` grid with rounding  
*Proof:* lattice enumeration over the reals; float refutation by kernel computation  
*Theorems:* `C58_exact`³, `C58_binary64_refuted`, `C58_no_point_refuted`³.

**C59 The optimisation report highlights a best trial** (proved; `T_Optimize4.v`)  
*Model:* `OptimizationReport`  
*Proof:* text tables as lists of cells; counter-examples for labels and ties  
*Theorems:* `C59_table`, `C59_agrees`, `C59_shown`, `C59_labels_refuted`, `C59_ties_refuted`.

**C60 Win/tie/loss counts partition the queries and mirror each other** (proved; `T_Compare.v`, `T_CompareEx.v`)  
*Model:* `compute_statistical_significance` win/tie/loss loops  
*Proof:* counting; NaN counter-example  
*Theorems:* `C60_win_tie_loss`, `C60_nan_refuted`.

**C61 Pairwise comparisons are symmetric and complete** (proved; `T_Compare2.v`, `T_CompareEx.v`)  
*Model:* `compare`, `FrozensetDict`, three tests (p-values of scipy are parameters)  
*Proof:* association lists over unordered pairs  
*Theorems:* `C61_comparisons`, `C61_tukey`, `C61_other_tests`, `C61_same_name_refuted`, `C61_no_entry`.

**C62 Fisher's randomization p-value is a frequency and detects identity** (proved; `T_Compare4.v`)  
*Model:* `fisher_randomization_test` for every random stream  
*Proof:* counting over the permutations drawn; symmetry under flipped signs  
*Theorems:* `C62_frequency`³, `C62_lengths`, `C62_equal_means`³, `C62_symmetric`³, `C62_threshold`³.

**C63 Report superscripts mark exactly the significantly outperformed models** (proved; `T_Report.v`, `T_Report3.v`, `T_Report4.v`, `T_ReportEx.v`)  
*Model:* `Report.to_table`, superscripts, alphabets  
*Proof:* for all models and metrics: letter i of row j iff the stored p-value is below the threshold and the score is better  
*Theorems:* `C63_superscripts`, `C63_alphabets`, `C63_total`, `C63_too_many`, `C63_table`, `C63_tables_total`, `C63_precision`, `C63_same_name_refuted`, `C63_same_metric_refuted`.

**C64 LaTeX boldface marks a best model** (proved; `T_Report2.v`)  
*Model:* `Report.to_latex`  
*Proof:* bold iff maximal; `str.replace` modelled  
*Theorems:* `C64_best`, `C64_total`, `C64_latex`.

**C65 Report.to_dict returns all results of the comparison** (proved; `T_Report4.v`, `T_ReportEx.v`)  
*Model:* `Report.to_dict`, `to_dataframe`  
*Proof:* lookup equations  
*Theorems:* `C65_to_dict`, `C65_to_dataframe`, `C65_names_refuted`.

**C66 Metric labels exist and distinguish metrics** (proved; `T_Labels.v`, `T_ReportEx.v`)  
*Model:* `get_metric_label` of report and ranxhub  
*Proof:* injectivity of the label function where it holds, refutations elsewhere  
*Theorems:* `C66_labels`, `C66_distinct`, `C66_no_label`, `C66_rbp_refuted`, `C66_hub`, `C66_hub_refuted`, `C66_table_refuted`.

**C67 Interrupted downloads never corrupt the cache** (proved; `T_Download.v`, `T_Download2.v`)  
*Model:* `download` as a transition system: kills between any two bytes, retries, any server behaviour within `server_ok`  
*Proof:* inductive invariant over traces; refutations for each dropped hypothesis  
*Theorems:* `C67_safe`, `C67_atomic`, `C67_retry_succeeds`, `C67_truncated_refuted`, `C67_error_page_refuted`, `C67_no_size_refuted`, `C67_changed_refuted`, `C67_write`.

**C68 compare scores every model on the same queries and reports the means** (proved; `T_Compare.v`, `T_Compare3.v`)  
*Model:* `compare` from dicts to report  
*Proof:* C18 for each model  
*Theorems:* `C68_results`, `C68_compare`³.

**C69 JSON and LZ4 files round-trip** (proved; `T_IO5.v`)  
*Model:* JSON and LZ4 save/load with abstract formats  
*Proof:* composition; infinities refuted for JSON  
*Theorems:* `C69_qrels_json`, `C69_run_json`, `C69_run_lz4`, `C69_infinite_refuted`.

**C70 Keyword arguments of from_parquet do not reach pandas** (proved; `T_IO5.v`)  
*Model:* `from_parquet(pd_kwargs)`  
*Proof:* equation: the argument is ignored  
*Theorems:* `C70_pd_kwargs`.

**C71 Overlapping downloads of one run are not protected** (proved; `T_Download2.v`)  
*Model:* two overlapping download processes  
*Proof:* trace that ends with a corrupt cache file  
*Theorems:* `C71_cached`, `C71_overlap_refuted`.

**C72 Saving a run for ranxhub and loading it back** (proved; `T_Hub.v`)  
*Model:* `ranxhub.save`, `Run.from_ranxhub`, YAML trees  
*Proof:* composition; refutations  
*Theorems:* `C72_save`, `C72_save_fails`, `C72_round_trip`, `C72_any_metric_refuted`, `C72_levels_refuted`, `C72_empty_results_refuted`.

**C73 The precision-recall plot shows the mean interpolated precision** (proved; `T_Plot.v`)  
*Model:* `plot` data  
*Proof:* means of the interpolated precision; axis values in binary64 by computation  
*Theorems:* `C73_curves`³, `C73_shape`³, `C73_no_runs`³, `C73_axis_binary64`, `C73_other_queries_refuted`.

**C74 Different ranxhub runs are cached in different files** (proved; `T_Paths.v`, `T_Paths2.v`)  
*Model:* paths as component lists, percent-encoding on characters  
*Proof:* injectivity; decoding function for URLs  
*Theorems:* `C74_inside`, `C74_distinct_files`, `C74_distinct_urls`, `C74_any_id_refuted`, `C74_escape_refuted`, `C74_nested_refuted`, `C74_relative`, `C74_url`.

**C75 The plain TREC readers agree with from_file** (proved; `T_Utils.v`)  
*Model:* `qrels_file_to_dict`, `run_file_to_dict`, `str.splitlines`  
*Proof:* agreement with the readers of C08/C09  
*Theorems:* `C75_qrels_agrees`, `C75_run_agrees`, `C75_saved_qrels`, `C75_saved_run`, `C75_any_text_refuted`.

**C76 Counting metrics are exact or correctly rounded in double precision** (proved; `T_Float.v`)  
*Model:* the metric functions of `M_Metrics.v` at the binary64 instance  
*Proof:* exactness of integers below 2^53, one rounding per quotient (Flocq)  
*Theorems:* `C76_hits_exact`³, `C76_hit_rate_exact`³, `C76_precision_rounded`³, `C76_recall_rounded`³, `C76_r_precision_rounded`³, `C76_mrr_rounded`³.

**C77 f1 and average precision stay in [0, 1] and are accurate in double precision** (proved; `T_Float.v`)  
*Model:* `_f1`, `_average_precision` at binary64  
*Proof:* forward error analysis of sums and quotients  
*Theorems:* `C77_f1_accurate`³, `C77_map_accurate`³.

**C78 ndcg in double precision: ideal rankings score exactly 1.0, accuracy, and the limits of [0, 1]** (proved; `T_Float.v`, `T_Float3.v`)  
*Model:* `_dcg`, `_ndcg` at binary64, log2/pow of given accuracy  
*Proof:* error analysis; monotone rounding for [0,1]; counter-example by computation  
*Theorems:* `C78_ndcg_accurate`³, `C78_ndcg_burges_accurate`³, `C78_ideal_is_exactly_one`³, `C78_ndcg_binary_01`³, `C78_graded_above_one_refuted`³.

**C79 Every object a program can hold is well-formed, and evaluates correctly** (proved; `T_Closure.v`)  
*Model:* closure of all object-producing API calls  
*Proof:* induction over the derivation of the object  
*Theorems:* `C79_runs`³, `C79_qrels`³, `C79_evaluate`³.

**C80 Reported means stay in [0,1] and are accurate in binary64** (proved; `T_Float4.v`)  
*Model:* `np.mean` in any order of summation; `evaluate` at binary64  
*Proof:* error analysis over summation trees  
*Theorems:* `C80_mean_any_order`³, `C80_evaluate`³.

**C81 Score normalisation in binary64** (proved; `T_Float5.v`)  
*Model:* `normalization/*` at binary64  
*Proof:* monotone rounding; counter-examples by computation  
*Theorems:* `C81_min_max`³, `C81_min_max_inverted`³, `C81_max`³, `C81_rank`³, `C81_ties_refuted`³, `C81_sum_refuted`³.

**C82 Perfect scores mean perfect rankings, zero means nothing found** (proved; `T_Perfect.v`)  
*Model:* the metric functions on one query  
*Proof:* iff per metric; exchange argument for ndcg (strictly decreasing discounts), counting for map  
*Theorems:* `C82_perfect`³, `C82_zero`³.

**C83 Fusion respects what all runs agree on** (proved; `T_Unanimity.v`)  
*Model:* the fusion functions  
*Proof:* from the formulas of C43-C46: sums compared run by run, medians by monotonicity of sorting, ranks from the sortedness of the fused run  
*Theorems:* `C83_same_runs`³, `C83_more_runs`³, `C83_ranks`³, `C83_strict_scores`³, `C83_strict_ranks`³, `C83_log_isr_single`³, `C83_extra_run_refuted`³.

**C84 Fusion in binary64 arithmetic** (proved; `T_Float12.v`, `T_Float6.v`, `T_Float7.v`, `T_Float8.v`)  
*Model:* the fusion functions with binary64 scores  
*Proof:* from the generic shape of the fused run (comb_G) and the rounding lemmas of Flocq; sums by induction over the runs, unanimity from the monotonicity of rounding  
*Theorems:* `C84_sum`³, `C84_max_min`³, `C84_med_anz_mnz`³, `C84_wsum`³, `C84_rrf`³, `C84_isr`³, `C84_unanimity`³, `C84_rank_unanimity`³, `C84_order`³, `C84_order_refuted`³, `C84_strict_refuted`³, `C84_rank_order`³, `C84_rrf_order_refuted`³.

**C85 A query's score depends on its own judgments and ranking only; ids carry no meaning** (proved; `T_Meta.v`, `T_MetaEx.v`)  
*Model:* evaluate (as for C18)  
*Proof:* each saved score is the metric's textbook value (C18), which is shown invariant under renaming; rankings without ties are unique; means and deviations are invariant under permutation  
*Theorems:* `C85_own_query_only`³, `C85_ids_carry_no_meaning`³, `C85_mean_of_parts`³, `C85_ties_refuted`.

**C86 Unjudged and non-relevant documents** (proved; `T_Meta2.v`, `T_MetaEx.v`)  
*Model:* evaluate (as for C18)  
*Proof:* two evaluations compared query by query (same_evaluations); the textbook metrics are shown to depend on the relevant judgments only; bpref by induction over the ranking  
*Theorems:* `C86_nonrelevant_judgments`³, `C86_bpref_ignores_unjudged`³, `C86_bpref_refuted`.

**C87 Metrics with a cut-off look at the best k results only** (proved; `T_Meta2.v`, `T_MetaEx.v`)  
*Model:* evaluate (as for C18)  
*Proof:* the ranking of the truncated run is the prefix of the ranking; the textbook metrics at k depend on the first k documents  
*Theorems:* `C87_best_results_suffice`³, `C87_cutoff_ignored_refuted`.

**C88 Normalising and fusing use only the query's own results** (proved; `T_Local.v`)  
*Model:* normalize, fuse (as for C37-C51)  
*Proof:* each per-query loop is shown to compute a function of the query's results (per_query_ofq, comb_same, condorcet_at), for all 25 methods  
*Theorems:* `C88_normalize_own_results`, `C88_fuse_own_results`, `C88_query_order_refuted`.

**C89 Normalisation undoes a change of scale** (proved; `T_Scale.v`)  
*Model:* normalize, fuse over the reals (as for C37-C51)  
*Proof:* the closed form of each norm (C38-C40) under an affine change; fuse by C88's argument; idempotence since each norm is itself an affine change with a denominator of 1 afterwards  
*Theorems:* `C89_normalize`³, `C89_fuse`³, `C89_twice`³, `C89_close_scores_refuted`³, `C89_max_shift_refuted`³.

**C90 evaluate uses lists prepared by the caller as they are** (proved; `T_Typed.v`)  
*Model:* evaluate (as for C18)  
*Proof:* compute_scores_spec on the given lists; for objects by unfolding evaluate on both sides  
*Theorems:* `C90_lists`³, `C90_objects_as_lists`, `C90_unsorted_list_refuted`, `C90_longer_run_refuted`.

**C91 What is saved and loaded again evaluates to the same numbers** (proved; `T_RoundTrip.v`)  
*Model:* M_IO, M_Evaluate; Spec_RoundTrip, Spec_Meta, Spec_Closure  
*Proof:* round trips C08, C09, C11, C69 composed with C85 under the identity renaming; the loaded objects are shown to be obtainable in the reader's environment  
*Theorems:* `C91_same_contents`³, `C91_saved_and_loaded`³.

**C92 Objects do not share results; the dictionaries handed out by get_doc_ids_and_scores are live** (proved; `T_Heap.v`)  
*Model:* M_Heap (references to inner dictionaries, in-place writes, allocation), M_History, M_Evaluate, M_Norm, M_Fusion; Spec_Heap  
*Proof:* simulation: invariant that live objects own disjoint places, each operation writes only owned or new places, lifted to arbitrary programs by induction; ownership of a reference is preserved by every step  
*Theorems:* `C92_step`, `C92_no_sharing`, `C92_write_run`, `C92_write_qrels`, `C92_view_live`, `C92_view_owner`, `C92_view_detached`, `C92_order_refuted`³.

**C93 What the reading methods tell about an object** (proved; `T_Container.v`)  
*Model:* M_Container, M_Qrels, M_Run, M_History; Spec_Container (reads_tell), Spec_DS, Spec_Hist  
*Proof:* refinement of histories (C02) composed with elementary facts about association lists  
*Theorems:* `C93_run_reads`, `C93_qrels_reads`, `C93_from_ir_datasets`.

**C94 Metrics without grades see only which judgments reach the level; float judgments** (proved; `T_Judgments.v`)  
*Model:* M_Judgments, M_Qrels, M_Metrics, M_Evaluate; Spec_Judgments (same_side, holds)  
*Proof:* rows of the two arguments are permutations of each other up to grades; every kernel is a function of the filtered ids; lifted through the parallel drivers and evaluate  
*Theorems:* `C94_relevance_only`, `C94_truncation`³, `C94_add_score`, `C94_graded_refuted`, `C94_negative_level_refuted`, `C94_failed_add_score_refuted`, `C94_add_multi`.

**C95 The thread schedule has no observable effect** (proved; `T_Sched.v`)  
*Model:* e_sched of Env, used by every parallel loop of the model; Spec_Sched (possible, threads_run, exec_threads)  
*Proof:* slot-writing loops are order-free (Permutation); congruence of every function in the environment; commutation of updates at distinct references  
*Theorems:* `C95_evaluate`, `C95_normalize`, `C95_fuse`, `C95_optimize`, `C95_compare`, `C95_plot`, `C95_set_relevance_level`, `C95_program`.

**C96 What a TREC file means; how numbers may be written** (proved; `T_Trec.v`)  
*Model:* M_IO, M_Strings, M_Evaluate; Spec_Trec (lines_of, fields, int_text: inductive definitions)  
*Proof:* the readers agree with the inductive definitions, in both directions; induction over lines with the last_row invariant  
*Theorems:* `C96_lines`, `C96_qrels_file`, `C96_run_file`, `C96_number_spelling`, `C96_number_refused`, `C96_second_cutoff_refuted`.

**C97 Evaluations do not disturb one another** (proved; `T_Again.v`)  
*Model:* M_Evaluate; Spec_Again (ask, after, after_pool, firsts, one_by_one)  
*Proof:* invariant: the objects are the given ones up to in-place sorting and saved results, and such objects give the same typed lists, key check and save errors; induction over the history; induction over the metric list for the score dictionary  
*Theorems:* `C97_any_history`, `C97_any_pool_history`, `C97_several_metrics`, `C97_several_raise`, `C97_saved_together`, `C97_comparable_refuted`.

**C98 The remaining metrics in double precision** (proved; `T_Float9.v`)  
*Model:* M_Metrics with Num = binary64 (NumSF_with); Spec_Float, Spec_Float5 (near_gain, close_score, recall_cutoff, float_cutoff, curve64)  
*Proof:* P_MetricsG2: the code in terms of documents for any number type; P_Float17: rounding lemmas for each term and sum (Flocq); P_Float18: error of the cut-off < 1/20, so its floor is off by at most one and only when the exact value is an integer; maxima commute with rounding  
*Theorems:* `C98_dcg`³, `C98_dcg_burges`³, `C98_bpref`³, `C98_interpolated`³, `C98_interpolated_refuted`³.

**C99 Runs that rank alike fuse to that ranking** (proved; `T_Alike.v`)  
*Model:* M_Norm, M_Fusion, M_Evaluate over the reals; Spec_Alike (ranks_as, keeping_norms, by_scores, by_ranks)  
*Proof:* P_Alike: each normalisation is strictly monotone on the scores it is given, and each method on equal rankings is strictly monotone in the rank or score; C50 and C42 give the order of the fused run; C99_evaluate by C85  
*Theorems:* `C99_fuse`³, `C99_evaluate`³, `C99_borda_ranks_refuted`³.

**C100 Tuned parameters reproduce the tuned score** (proved; `T_Tuned.v`)  
*Model:* M_Optimize, M_Fusion, M_Evaluate; Spec_Tuned (given, top_score, stored_sorted)  
*Proof:* from C57_best_trial, C57_probfuse and C57_slidefuse, which also say what happened to the runs and the qrels; the fusion functions read the stored maps only; the refutation evaluates the model in binary64  
*Theorems:* `C100_reproduces`, `C100_found`, `C100_unsorted_refuted`.

**C101 Only the proportions of the weights matter** (proved; `T_Weights.v`)  
*Model:* M_Fusion, M_Norm, M_Evaluate; Spec_Weights (scaled_by, distinct_scores)  
*Proof:* from the values of C43, C45 and C46; the Condorcet comparison sums weights and compares the sums; evaluation through C20's argument on rankings  
*Theorems:* `C101_scaled`³, `C101_condorcet`³, `C101_equal`³, `C101_equal_condorcet`³, `C101_evaluate`³, `C101_binary64_refuted`.

**C102 Normalising a run does not change its metrics** (proved; `T_NormEval.v`)  
*Model:* M_Norm, M_Evaluate; Spec_NormEval (ranks_like), Spec_Weights (distinct_scores)  
*Proof:* from the order clauses of C38 to C40 and the argument of C20; the exceptions by computing in binary64  
*Theorems:* `C102_ranks_like`³, `C102_evaluate`³, `C102_inverted_twice`³, `C102_exceptions_refuted`.

**C103 BordaFuse does not round** (proved; `T_Float10.v`)  
*Model:* M_Fusion (bordafuse, weighted_bordafuse); Spec_Float6 (points64, listing64)  
*Proof:* bordafuse is comb_sum of the rank based runs; half integers up to 2^52 are representable and their sums stay below 2^53  
*Theorems:* `C103_bordafuse`³, `C103_weighted`³, `C103_order`³, `C103_unanimity`³.

**C104 Condorcet does not depend on rounding** (proved; `T_Float11.v`)  
*Model:* M_Fusion (condorcet, weighted_condorcet); Spec_Float7 (read64, same_as_exact)  
*Proof:* votes are integers, and integer totals up to 2^53 are added and compared exactly; positions come from the order of the documents only  
*Theorems:* `C104_condorcet`³, `C104_weighted`³, `C104_majority`³, `C104_weights_refuted`³.

## 4. Trusted base

* The Coq 8.16.1 kernel (with its virtual machine, used by `vm_compute` for the computed counter-examples) and `coqc`.
* The axioms `Print Assumptions` lists, all from the standard library:
  * no mark (185 theorems): none;
  * ² (1): `ClassicalDedekindReals.sig_forall_dec`, `FunctionalExtensionality.functional_extensionality_dep`;
  * ³ (226): `ClassicalDedekindReals.sig_forall_dec`, `ClassicalDedekindReals.sig_not_dec`,
    `Classical_Prop.classic`, `FunctionalExtensionality.functional_extensionality_dep` - the axioms of the
    standard library's real numbers.
  There are no axioms of our own; Flocq is used (for lemmas about rounding) and adds none.
* The reading of Python, numba and numpy recorded in the comments of the model.  In particular:
  * `prange`: the iterations are run in some order, each completely (C17 shows the order does not matter because
    they write to different places);
  * `np.argsort`: a sorting permutation for NaN-free input (`env_ok`);
  * `np.sum`/accumulations inside numba are sequential loops; `np.mean` outside is modelled sequentially
    too, and C80_mean_any_order covers every other order of summation (numpy's is pairwise);
  * CPython's `list.sort` with a comparison that is not transitive (Condorcet) is any function whose adjacent
    outputs have been compared (`sorter_ok`): true of binary insertion and of merging, where every adjacent
    output pair is compared directly or was adjacent in a sorted run;
  * `log2` and `pow` are library functions: hypotheses `log2_accurate`, `log2_monotone`, `pow2_exact` in C78, shown
    to be satisfiable by the correctly rounded functions;
  * the text of floats (`repr`, `%`-formatting, `round`) is a parameter; integers are printed and parsed
    character by character;
  * downloads: bytes are written in order, `rename` is atomic, different ids use different files (C74).

Hypotheses of the theorems other than `env_ok` are about the user's data (e.g. NaN-free scores, ids without blanks for TREC
files, judgments below 2^53 for binary64) and are spelled out in the statements; beside each theorem an
`Example` shows a concrete non-trivial case that satisfies them, and where a hypothesis is needed a `_refuted`
theorem shows what happens without it.

## 5. What does not hold of the code

Proved as `_refuted` theorems (the natural stronger claim is false of the model):

1. An `add_multi` that raises half-way leaves a container that claims to be sorted and is not (C03).
2. `set_relevance_level` changes graded metrics, unlike the `-l` suffix (C07).
3. TREC files silently misread ids that contain blanks or line ends, runs without a name or with blanks in it (C08, C09).
4. `save(kind='gz')` writes plain text, and parquet files have no reader in `from_file` (C10); the keyword arguments of
   `from_parquet` are dropped (C70); queries without documents vanish in data frames (C11).
5. `r-precision`'s documented alias is refused (C14).
6. `evaluate` on dicts pairs queries by position: other key order, other scores (C15); mappings other than
   `dict` are not checked for having the same queries (C16).
7. `evaluate(..., return_mean=False, save_results_in_run=False)` does not return what is documented (C19).
8. bpref raises or is NaN for queries without judged (non-)relevant documents (C27), which makes win/tie/loss counts
   not add up (C60); graded rbp exceeds its binary definition (C28).
9. Interpolated precision: at recall 0.7 with 3 relevant documents binary64 gives the cut-off 2 instead of 3 (C29).
10. Documents whose hashes round to the same float are confused (C35).
11. Rank and Borda normalisation and the rank-based fusions use the stored order of unsorted runs (C40, C52); Borda
    normalisation, BordaFuse, training and plotting pair queries by position (C41, C46, C53, C73).
12. Condorcet may place c before a although every run ranks a before c (C47).
13. comb_max/comb_min return the sentinels -1e9/1e9 outside their range (C43).
14. The weight grid in binary64 misses combinations and a step printed without a point (an int, 1e-05) breaks it (C58); optimisation reports with equal labels or ties
    highlight the wrong or several rows (C59).
15. Models with the same name overwrite each other in comparisons and reports (C61, C63, C65); metric labels of rbp and of
    relevance levels collide (C66).
16. Downloads: truncated answers, error pages, missing sizes and changed files on the server are cached as if complete (C67); two
    overlapping downloads corrupt the cache (C71).
17. JSON cannot hold infinities (C69); ranxhub cards: dcg cannot be saved, levels collide, empty results are refused (C72).
18. ranxhub ids a/b, a//b, a/./b share a cache file; `..` and absolute ids leave the cache; one id's file can block another's
    directory (C74).
19. The plain TREC readers split lines at VT, FF, FS, GS, RS unlike `from_file` (C75).
20. Graded ndcg exceeds 1.0 in binary64 (C78); sum normalisation in binary64 can exceed 10^9 and min-max merges distinct scores (C81).
21. A document found by one more run can drop below a document it beats everywhere with comb_anz, comb_med and comb_min; log_isr
    scores 0 every document found by one run only (C83).
22. In binary64 the order of three or more runs can decide how comb_sum ranks two documents (C84).
23. With tied scores the order in which results were added decides a metric's value (C85); the cut-offs of r-precision@k and bpref@k
    are accepted and ignored (C87).
24. The scale of scores whose spread is below 10^-9 shows through every score-based normalisation (C89).
25. Ready-made lists given to evaluate are not sorted by score, and rows of a run beyond the number of qrels rows are ignored (C90).
26. Writing into a dictionary returned by get_doc_ids_and_scores changes the object without clearing its sorted mark (C92).
27. Qrels.add_score with a score that int() refuses raises after an empty query has been stored; the qrels then no longer match the run (C94).
28. Float judgments are truncated by Qrels but not by a plain dict handed to evaluate: graded metrics differ (C94).
29. What follows a second `@` in a metric string is ignored: `precision@5@10x` is `precision@5` (C96).
30. evaluate with make_comparable=True sorts the run anew at every call; with tied scores (unstable argsort) the same call repeated on the same objects may return another value (C97).
31. fuse(norm="borda") with a rank-based method (rrf, isr, ...) reads the iteration order of a Python set instead of the runs' rankings: two equal runs can come out reversed (C99).
32. Interpolated precision takes one relevant document too few at some recall levels in binary64: 2 of 3 for recall 0.7 (C98).
33. optimize_fusion(norm=..., method="probfuse"/"slidefuse") sorts its normalised copies while training, fuse does not: on unsorted runs the tuned parameters do not reproduce the reported score (C100).
34. Multiplying all weights of wsum by 10 can reverse two documents in binary64, although they tie over the reals (C101).
35. w_condorcet with weights 2^53, 2^53 and 1 puts a document directly before one that runs with the larger total weight prefer: the sum 2^53 + 1 rounds to 2^53 (C104).
36. rrf of three runs with the default k: documents with the same ranks 1, 2, 7 (in different runs) get different binary64 scores, and the order of the runs decides which comes first (C84).

## 6. Wrong programs

`seeded/LOG.jsonl` (729 lines) records edits of the model, each rebuilt in a scratch copy: which definition was
edited, how, which claim it breaks, which theorems failed and which were tightened because they did not.

## 7. Validation of the model against the project's tests

`theories/Conformance.v` replays the repository's unit tests on the model: 122 `Example`s evaluate the model in
binary64 on the literal inputs of `tests/unit/ranx` (fusion, training, normalization, metrics, `evaluate`, `Qrels`, `Run`,
files) and compare with the values the tests assert.  They are tests of the model, not proofs of properties, and no
claim in MANIFEST.json rests on them; they show that the definitions the theorems are about give the results the project
itself records.  Left out: the tests of `Report`, which use random data.
