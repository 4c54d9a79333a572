{"id": "C01", "title": "Building a Qrels/Run from a dict loses and invents nothing", "statement": "For every nested dict that contains at least one document, Qrels(d)/Qrels.from_dict(d)/Run(d)/Run.from_dict(d) yields an object whose to_dict() contains exactly the same queries, the same documents per query and the same scores, with query ids in increasing order and every result list in non-increasing score order.", "quantifier": "all nested dicts {query: {doc: score}}, all tie-breaking choices of np.argsort", "why_tests_cant": "the numbers of queries, documents and ties are unbounded and np.argsort's order among equal scores is unspecified", "anchors": ["ranx/data_structures/run.py: Run.__init__, Run.from_dict, Run.to_dict", "ranx/data_structures/qrels.py: Qrels.__init__, Qrels.from_dict, Qrels.to_dict", "ranx/data_structures/common.py: create_and_sort, sort_dict_by_key, sort_dict_of_dict_by_value"]}
{"id": "C02", "title": "Any history of edits behaves like a plain nested map", "statement": "After any sequence of add_score, add, add_multi, sort, make_comparable (Run) or set_relevance_level (Qrels) calls, looking up (query, document) returns the value that the same sequence of assignments on an ordinary nested map would give: add_score changes one pair only, add/add_multi replace the listed queries only, sort changes nothing.", "quantifier": "all operation histories from an empty or dict-built object", "why_tests_cant": "histories are unbounded sequences of six operations over arbitrary ids", "anchors": ["ranx/data_structures/run.py: add_score, add, add_multi, sort, make_comparable", "ranx/data_structures/qrels.py: add_score, add, add_multi, sort, set_relevance_level", "ranx/data_structures/common.py: add_and_sort"]}
{"id": "C03", "title": "A container that claims to be sorted is sorted", "statement": "After any history of public operations, if the object's sorted flag is set then its query ids are strictly increasing and each query's documents are in non-increasing score order; hence skipping the sort when the flag is set never lets a metric see an unsorted ranking.", "quantifier": "all operation histories, all argsort tie-breaks", "why_tests_cant": "a stale flag only shows up after particular operation interleavings", "anchors": ["ranx/data_structures/run.py: Run.sort, Run.to_typed_list, Run.add_score, Run.add_multi", "ranx/data_structures/qrels.py: Qrels.sort, Qrels.to_typed_list, Qrels.set_relevance_level"]}
{"id": "C04", "title": "sort() only reorders", "statement": "sort() on a Qrels or Run is a permutation of queries and, per query, a permutation of (document, score) pairs; applying it twice gives the same queries order and the same score sequence as applying it once.", "quantifier": "all containers, all argsort tie-breaks", "why_tests_cant": "all sizes and all tie patterns", "anchors": ["ranx/data_structures/common.py: sort_dict_by_key, sort_dict_by_value, sort_dict_of_dict_by_value"]}
{"id": "C05", "title": "make_comparable aligns a run with the qrels", "statement": "After run.make_comparable(qrels) the run's query ids are exactly those of qrels; queries that were missing have empty results, queries absent from qrels are gone, and the results of the common queries are unchanged as (document, score) sets.", "quantifier": "all runs and qrels", "why_tests_cant": "all combinations of missing/extra queries, and deletion while iterating", "anchors": ["ranx/data_structures/run.py: Run.make_comparable", "ranx/data_structures/generic.py: create_empty_results_dict"]}
{"id": "C06", "title": "set_relevance_level shifts judgments so that level 1 means rel_lvl", "statement": "After qrels.set_relevance_level(l), a document is relevant at level 1 iff it was relevant at level l before; more generally relevant at level m iff it was at level m+l-1, under every order in which the parallel loop visits queries.", "quantifier": "all qrels, all integer levels, all parallel schedules", "why_tests_cant": "unbounded integers and schedules of the prange loop", "anchors": ["ranx/data_structures/qrels.py: _set_relevance_level, Qrels.set_relevance_level"]}
{"id": "C07", "title": "Evaluating with set_relevance_level(l) and with the -l suffix agree for binary metrics", "statement": "For hits, hit_rate, precision, recall, f1, r-precision, mrr, map and bpref, evaluating \"metric-lL\" on the original qrels gives the same score as evaluating \"metric\" after qrels.set_relevance_level(L); for the graded metrics (dcg, ndcg, rbp) the two differ in general because the shift changes the gains.", "quantifier": "all qrels, runs, levels, cut-offs", "why_tests_cant": "requires all judgments and levels", "anchors": ["ranx/data_structures/qrels.py: set_relevance_level", "ranx/metrics/common.py: clean_qrels", "ranx/meta/evaluate.py: extract_metric_and_params"]}
{"id": "C08", "title": "TREC qrels files round-trip", "statement": "If no query or document id is empty or contains whitespace and every query has at least one judged document, Qrels.from_file of the text written by Qrels.save(kind='trec') holds exactly the same queries, documents and integer judgments; queries with no judged document are dropped.", "quantifier": "all qrels with whitespace-free ids", "why_tests_cant": "all ids, all integers (signs, digits), all line-break placements", "anchors": ["ranx/data_structures/qrels.py: Qrels.save, Qrels.from_file"]}
{"id": "C09", "title": "TREC run files round-trip", "statement": "If no id and no run name is empty or contains whitespace and every query has at least one result, Run.from_file of the text written by Run.save(kind='trec') holds exactly the same queries, documents, scores and name, provided str/float on scores round-trip; ranks written are 1..n in non-increasing score order.", "quantifier": "all runs with whitespace-free ids and names", "why_tests_cant": "all ids, scores, names", "anchors": ["ranx/data_structures/run.py: Run.save, Run.from_file"]}
{"id": "C10", "title": "File kind is inferred from the extension and anything else is rejected", "statement": "With kind=None, the kind used by save/from_file depends only on the last extension of the file name (.json, .trec/.txt, .gz, .parquet/.parq and .lz4 for runs); an explicit kind overrides it; any other kind raises an AssertionError before touching the file. from_file has no parquet branch although its kind check admits 'parquet'.", "quantifier": "all paths and kinds", "why_tests_cant": "unbounded path strings", "anchors": ["ranx/data_structures/run.py: get_file_kind", "ranx/data_structures/qrels.py: get_file_kind"]}
{"id": "C11", "title": "DataFrame export/import round-trips", "statement": "For a Qrels/Run whose queries all have at least one document, from_df(to_dataframe(x)) holds the same (query, document, score) triples; duplicated (query, document) rows keep the last score; column dtypes other than the documented ones raise AssertionError.", "quantifier": "all containers and all data frames", "why_tests_cant": "all row orders and duplicates", "anchors": ["ranx/data_structures/run.py: to_dataframe, from_df", "ranx/data_structures/qrels.py: to_dataframe, from_df", "ranx/utils.py: dataframe_to_dict"]}
{"id": "C12", "title": "A container cannot be built from a dict without documents", "statement": "Qrels/Run built from a dict raises ValueError exactly when no query has any document, and otherwise succeeds.", "quantifier": "all nested dicts", "why_tests_cant": "boundary over all shapes of nested dicts", "anchors": ["ranx/data_structures/run.py: Run.__init__, Run.from_dict", "ranx/data_structures/qrels.py: Qrels.__init__, Qrels.from_dict"]}
{"id": "C13", "title": "Metric strings denote metric, cut-off and relevance level", "statement": "\"m\", \"m@k\", \"m-lL\", \"m@k-lL\" and \"rbp.P\"/\"rbp@P\" (optionally with -lL) are parsed into exactly that metric name, cut-off k (0 when absent) or persistence 0.P, and level L (1 when absent), for every supported metric name and every non-negative k and L; rbp without a persistence raises ValueError.", "quantifier": "all supported names, all naturals k, L, all digit strings P", "why_tests_cant": "unbounded decimal strings", "anchors": ["ranx/meta/evaluate.py: extract_metric_and_params", "ranx/metrics/__init__.py: metric_switch"]}
{"id": "C14", "title": "Unknown metrics are rejected", "statement": "evaluate raises ValueError for every metric string whose metric part is not one of the supported names; the alias r_precision mentioned in documentation is not supported.", "quantifier": "all strings", "why_tests_cant": "infinitely many strings", "anchors": ["ranx/metrics/__init__.py: metric_switch", "ranx/meta/evaluate.py: evaluate"]}
{"id": "C15", "title": "evaluate scores every query against its own judgments", "statement": "When qrels is a Qrels and run a Run (any edit history) with the same query ids, the i-th score that evaluate produces is the metric of query i's judgments against query i's ranking, never another query's; with plain dicts this holds when both dicts list queries in the same order, and is violated otherwise (only the sets of query ids are checked).", "quantifier": "all qrels/run pairs, histories, dict insertion orders", "why_tests_cant": "needs all insertion orders and histories", "anchors": ["ranx/meta/evaluate.py: evaluate, check_keys, convert_qrels, convert_run", "ranx/utils.py: python_dict_to_typed_list"]}
{"id": "C16", "title": "Mismatching queries are refused", "statement": "evaluate on a Qrels or plain dict together with a Run or plain dict raises AssertionError iff the sets of query ids differ (unless make_comparable applies, after which it never raises it); other mappings such as the defaultdict returned by to_dict() are not checked.", "quantifier": "all query id sets and input kinds", "why_tests_cant": "all id sets and input kinds", "anchors": ["ranx/meta/evaluate.py: check_keys, evaluate"]}
{"id": "C17", "title": "Scores do not depend on the thread schedule", "statement": "For every metric, the array of per-query scores is the same for every order in which the parallel loop executes its iterations.", "quantifier": "all schedules of the prange loop, all inputs", "why_tests_cant": "the scheduler's choices are not controllable from a test", "anchors": ["ranx/metrics/*: _*_parallel", "ranx/utils.py: descending_sort_parallel"]}
{"id": "C18", "title": "evaluate returns the mean and saves exactly the per-query scores", "statement": "evaluate returns the arithmetic mean of the per-query scores (and population standard deviation if return_std), bare for one metric and as a dict for several; run.mean_scores, run.std_scores and run.scores[metric][query] are set to exactly those numbers, previously saved metrics are kept, and nothing is stored when save_results_in_run=False.", "quantifier": "all inputs and metric lists", "why_tests_cant": "unbounded number of queries/metrics and repeated calls", "anchors": ["ranx/meta/evaluate.py: evaluate"]}
{"id": "C19", "title": "evaluate with a single metric and return_mean=False returns the score array", "statement": "evaluate(qrels, run, metric, return_mean=False) returns the array of per-query scores; it does so when run is a Run and results are saved, but raises KeyError for e.g. \"ndcg@5\" when run is not a Run or save_results_in_run=False.", "quantifier": "all metric strings and input kinds", "why_tests_cant": "depends on a leaked loop variable for each metric string", "anchors": ["ranx/meta/evaluate.py: evaluate"]}
{"id": "C20", "title": "Metrics depend only on the ranking, not on the score values", "statement": "Replacing every score s of a run by f(s) with f strictly increasing leaves every metric score unchanged when no two documents of a query tie.", "quantifier": "all runs without ties, all strictly increasing functions", "why_tests_cant": "all functions and all runs", "anchors": ["ranx/metrics/*", "ranx/data_structures/common.py: sort_dict_by_value"]}
{"id": "C21", "title": "hits, hit_rate, precision and recall compute their definitions", "statement": "For each query: hits@k is the number of relevant documents (judgment >= level) among the first k of the ranking (all of it when k=0 or k exceeds its length); hit_rate@k is 1 if hits@k>0 else 0; precision@k = hits@k/k (k = ranking length when 0); recall@k = hits@k / number of relevant documents; 0 for the degenerate cases (nothing retrieved with k=0, nothing relevant).", "quantifier": "all judgments, rankings, cut-offs and levels for which doc hashes do not collide", "why_tests_cant": "all rankings and cut-offs, and the id-range prefilter must never change the answer", "anchors": ["ranx/metrics/hits.py", "ranx/metrics/hit_rate.py", "ranx/metrics/precision.py", "ranx/metrics/recall.py", "ranx/metrics/common.py"]}
{"id": "C22", "title": "f1 is the harmonic mean of precision and recall", "statement": "f1@k = 2PR/(P+R) with P=precision@k, R=recall@k, and 0 when both are 0.", "quantifier": "all judgments, rankings, cut-offs and levels", "why_tests_cant": "all inputs", "anchors": ["ranx/metrics/f1.py"]}
{"id": "C23", "title": "r-precision is precision at the number of relevant documents", "statement": "r-precision = precision@R where R is the number of relevant documents, hence equals recall@R; 0 if R=0.", "quantifier": "all judgments, rankings and levels", "why_tests_cant": "all inputs", "anchors": ["ranx/metrics/r_precision.py"]}
{"id": "C24", "title": "mrr is the reciprocal of the first relevant rank", "statement": "reciprocal rank@k = 1/(position of the first relevant document) if that position is at most k (or k=0), else 0.", "quantifier": "all judgments, rankings, cut-offs and levels", "why_tests_cant": "all inputs", "anchors": ["ranx/metrics/reciprocal_rank.py"]}
{"id": "C25", "title": "map averages the precision at each relevant document", "statement": "average precision@k = (sum over relevant documents at rank r<=k of precision@r) / (number of relevant documents), 0 without relevant documents.", "quantifier": "all judgments, rankings, cut-offs and levels", "why_tests_cant": "all inputs", "anchors": ["ranx/metrics/average_precision.py"]}
{"id": "C26", "title": "dcg and ndcg compute their definitions in both formulations", "statement": "dcg@k = sum over ranks i<=k of gain_i/log2(i+1) (Jarvelin) or (2^gain_i-1)/log2(i+1) (Burges), where the gain is the judgment if it reaches the level and 0 otherwise; the ideal dcg is the largest dcg@k any ranking can reach; ndcg = dcg/ideal (0 when the ideal is 0).", "quantifier": "all judgments, rankings, cut-offs and levels", "why_tests_cant": "optimality quantifies over all rankings", "anchors": ["ranx/metrics/ndcg.py"]}
{"id": "C27", "title": "bpref computes its definition when it is defined", "statement": "If a query has at least one relevant and one judged non-relevant document, bpref = 1/R * sum over retrieved relevant r of 1 - min(#judged non-relevant above r, R)/min(R,N); without judged non-relevant documents the code yields NaN as soon as a relevant document is retrieved.", "quantifier": "all judgments, rankings, levels", "why_tests_cant": "all inputs", "anchors": ["ranx/metrics/bpref.py", "ranx/metrics/get_hit_lists.py", "ranx/metrics/get_unjudged_lists.py"]}
{"id": "C28", "title": "rbp computes the graded rank-biased precision", "statement": "rbp.p = (1-p) * sum over ranks i of gain_i * p^(i-1), with gain the judgment of a relevant document and 0 otherwise; it equals the documented binary RBP when judgments are 0/1 and exceeds it otherwise (values above 1 are possible).", "quantifier": "all judgments, rankings, p and levels", "why_tests_cant": "all inputs", "anchors": ["ranx/metrics/rank_biased_precision.py"]}
{"id": "C29", "title": "Interpolated precision at recall is monotone and correct", "statement": "interpolated_precision_at_recall returns eleven values; value j is the largest precision at any rank where at least ceil-like cut-off_j relevant documents have been found (0 if never); values are non-increasing in j and lie in [0,1].", "quantifier": "all judgments, rankings, levels", "why_tests_cant": "all inputs", "anchors": ["ranx/metrics/interpolated_precision_at_recall.py"]}
{"id": "C30", "title": "Normalised metrics stay in [0,1]", "statement": "hit_rate, precision, recall, f1, r-precision, mrr, map, ndcg, ndcg_burges (and bpref where defined, rbp for judgments at most 1) are between 0 and 1 for every query, hence so is their mean.", "quantifier": "all inputs with non-negative levels", "why_tests_cant": "ndcg<=1 needs the ideal ranking to be optimal among all rankings", "anchors": ["ranx/metrics/*"]}
{"id": "C31", "title": "Ideal rankings score 1", "statement": "If the ranking lists all relevant documents first in non-increasing judgment order, then recall, r-precision, mrr, map, ndcg and ndcg_burges are 1 (with at least one relevant document); if no relevant document is retrieved in the top k all of these are 0.", "quantifier": "all judgments and rankings", "why_tests_cant": "all inputs", "anchors": ["ranx/metrics/*"]}
{"id": "C32", "title": "Cut-offs only look at the top of the ranking and grow monotonically", "statement": "metric@k depends only on the first k retrieved documents; hits, hit_rate, recall, mrr, map and dcg never decrease when k grows, and k=0 equals k=length of the ranking for these.", "quantifier": "all inputs, all pairs of cut-offs", "why_tests_cant": "all k", "anchors": ["ranx/metrics/common.py: fix_k", "ranx/metrics/*"]}
{"id": "C33", "title": "Moving a relevant document up never hurts", "statement": "Swapping two adjacent documents so that the one with the larger gain comes first never decreases hits@k, precision, recall, f1, mrr, map, dcg, ndcg or rbp.", "quantifier": "all rankings and adjacent swaps", "why_tests_cant": "all rankings", "anchors": ["ranx/metrics/*"]}
{"id": "C34", "title": "Appending non-relevant documents at the end changes nothing but uncut precision", "statement": "Appending documents that are not relevant at the end of a ranking leaves hits, recall, r-precision with enough results, mrr, map, dcg, ndcg, rbp and every metric with a cut-off not beyond the old length unchanged.", "quantifier": "all rankings and all tails", "why_tests_cant": "all tails", "anchors": ["ranx/metrics/*"]}
{"id": "C35", "title": "Documents are identified only through a rounded hash", "statement": "Metrics compare document ids through their 64-bit hash converted to float64. Scores are those of the true documents whenever these rounded hashes are distinct on the documents of a query; two documents whose hashes differ by less than the rounding step are confused.", "quantifier": "all hash functions and documents", "why_tests_cant": "collisions are astronomically rare in tests", "anchors": ["ranx/data_structures/common.py: to_typed_list", "ranx/utils.py: python_dict_to_typed_list"]}
{"id": "C36", "title": "Hit, unjudged and non-relevant lists classify every retrieved document", "statement": "get_hit_lists, get_unjudged_lists and get_non_rel_lists mark position i with 1 iff the i-th retrieved document is respectively judged at or above the level, absent from the judgments, judged exactly 0; with level 1 and non-negative judgments exactly one of the three is set at each position.", "quantifier": "all inputs", "why_tests_cant": "all inputs", "anchors": ["ranx/metrics/get_hit_lists.py", "ranx/metrics/get_unjudged_lists.py", "ranx/metrics/get_non_rel_lists.py"]}
{"id": "C37", "title": "Normalisation keeps queries, documents and the run name", "statement": "Every normalisation returns a new Run with the same name, the same query ids and (all but borda) the same documents per query, under every parallel schedule, and leaves its input unchanged.", "quantifier": "all runs, all schedules", "why_tests_cant": "all runs and schedules", "anchors": ["ranx/normalization/*"]}
{"id": "C38", "title": "min-max normalisation maps to [0,1] and preserves order", "statement": "min-max gives (s-min)/max(max-min,1e-9): all values lie in [0,1], the smallest score maps to 0, the largest to 1 when the spread is at least 1e-9 and strict order is preserved; equal scores all map to 0. The inverted variant reverses the order.", "quantifier": "all result lists", "why_tests_cant": "all score multisets including constants and tiny spreads", "anchors": ["ranx/normalization/min_max_norm.py"]}
{"id": "C39", "title": "max, sum and zmuv normalisations compute their formulas and preserve order", "statement": "max: s/max(max,1e-9) (at most 1 when some score is >=1e-9; no lower bound for negative scores); sum: (s-min)/max(sum(s-min),1e-9), values in [0,1] adding up to 1 when the denominator is at least 1e-9; zmuv: zero mean and, when the deviation is at least 1e-9, unit variance. All preserve the order of scores.", "quantifier": "all result lists", "why_tests_cant": "all score multisets", "anchors": ["ranx/normalization/max_norm.py", "ranx/normalization/sum_norm.py", "ranx/normalization/zmuv_norm.py"]}
{"id": "C40", "title": "rank normalisation depends only on positions", "statement": "rank normalisation assigns 1-i/n to the document at position i of n, so values are distinct, in (0,1], strictly decreasing in position; positions are the true score ranks when the run is sorted, but for a run filled through add_score they are insertion positions.", "quantifier": "all result lists, all histories", "why_tests_cant": "all histories", "anchors": ["ranx/normalization/rank_norm.py"]}
{"id": "C41", "title": "borda normalisation scores all candidates of all runs", "statement": "For sorted runs over the same queries, borda gives each candidate document of the query (retrieved by any run) 1-rank/n when retrieved at 0-based rank, and 0.5-(r-1)/(2n) otherwise (n candidates, r retrieved): the values of each run sum to (n+1)/2; and an unretrieved document never outranks a retrieved one.", "quantifier": "all lists of runs, all set iteration orders", "why_tests_cant": "set iteration order is arbitrary; totals over all sizes", "anchors": ["ranx/normalization/borda_norm.py"]}
{"id": "C42", "title": "Fusion returns exactly the union of the documents", "statement": "For every fusion method, the fused run contains the query ids of the input runs and, per query, exactly the documents that at least one (normalised) run retrieved, each once.", "quantifier": "all lists of runs over the same queries, all schedules", "why_tests_cant": "all overlaps between runs", "anchors": ["ranx/fusion/*"]}
{"id": "C43", "title": "Comb fusions compute their aggregation formula", "statement": "comb_sum, comb_max, comb_min, comb_med, comb_anz, comb_mnz, comb_gmnz give each document respectively the sum, maximum, minimum, median, mean, sum*count and sum*count^gamma of the scores of the runs that retrieved it; comb_max/min are wrong when all scores of a document are below -1e9 / above 1e9.", "quantifier": "all runs and documents", "why_tests_cant": "all overlaps and score values; sentinel values", "anchors": ["ranx/fusion/comb_*.py"]}
{"id": "C44", "title": "Rank-based fusions compute their formula from ranks", "statement": "isr, log_isr, logn_isr, rrf, rbc score each document by count*sum 1/r^2, log(count)*sum 1/r^2, log(count+sigma)*sum 1/r^2, sum 1/(k+r) and sum (1-phi)phi^(r-1) over the runs retrieving it (r = 1-based position).", "quantifier": "all runs, parameters", "why_tests_cant": "all overlaps", "anchors": ["ranx/fusion/isr.py", "ranx/fusion/log_isr.py", "ranx/fusion/logn_isr.py", "ranx/fusion/rrf.py", "ranx/fusion/rbc.py"]}
{"id": "C45", "title": "Weighted fusions compute their formula and generalise the unweighted ones", "statement": "wsum, wmnz and mixed give sum w_i s_i, (sum s_i)*(sum w_i), sqrt(count)*sum w_i s_i over the retrieving runs; with all weights 1, wsum equals comb_sum and wmnz equals comb_mnz.", "quantifier": "all runs and weights", "why_tests_cant": "all overlaps", "anchors": ["ranx/fusion/wsum.py", "ranx/fusion/wmnz.py", "ranx/fusion/mixed.py"]}
{"id": "C46", "title": "BordaFuse distributes points by position", "statement": "bordafuse gives each run's i-th ranked document n-i+1 points out of n candidates and splits the remaining points evenly among the candidates it did not retrieve, so that every run with results hands out n(n+1)/2 points; the fused score is the (weighted) sum.", "quantifier": "all runs with aligned queries", "why_tests_cant": "all sizes", "anchors": ["ranx/fusion/bordafuse.py", "ranx/fusion/weighted_bordafuse.py"]}
{"id": "C47", "title": "Condorcet fusion follows the majority comparison", "statement": "condorcet and weighted condorcet output a permutation of the candidates ordered by a comparison sort on pairwise majority; if the majority relation is a strict weak order (e.g. all runs agree) the fused ranking respects it; it does not depend on score values.", "quantifier": "all runs", "why_tests_cant": "cyclic majorities and the sort's behaviour on inconsistent comparators", "anchors": ["ranx/fusion/condorcet.py", "ranx/fusion/weighted_condorcet.py"]}
{"id": "C48", "title": "Fusion is independent of the order of the runs", "statement": "Permuting the runs (with their weights) does not change any document's fused score for the comb, rank-based, weighted and borda methods (in exact arithmetic).", "quantifier": "all permutations of all lists of runs", "why_tests_cant": "all permutations", "anchors": ["ranx/fusion/*"]}
{"id": "C49", "title": "Fusion rewards agreement: monotone in each input score", "statement": "Raising one run's score of a document (comb_sum, comb_max, comb_min, comb_med, comb_anz, comb_mnz, wsum with non-negative weights) never lowers its fused score and does not change other documents' scores.", "quantifier": "all runs", "why_tests_cant": "all perturbations", "anchors": ["ranx/fusion/comb_*.py", "ranx/fusion/wsum.py"]}
{"id": "C50", "title": "Fused runs are sorted", "statement": "The run returned by every fusion method except condorcet-style ones is sorted by query id and non-increasing fused score; condorcet output is already in fused order.", "quantifier": "all runs", "why_tests_cant": "all runs and tie-breaks", "anchors": ["ranx/fusion/*"]}
{"id": "C51", "title": "fuse checks its inputs before fusing", "statement": "fuse raises AssertionError for fewer than two runs or if any two runs have different query id sets, ValueError for an unknown normalisation or method, TypeError for a parameter that the method does not have or a missing parameter without a default; otherwise it equals applying the fusion method to the normalised runs, and the result is named by the name parameter or after the method. An int given where a float parameter is expected means the same number.", "quantifier": "all run lists, norms, methods, parameters", "why_tests_cant": "all combinations", "anchors": ["ranx/meta/fuse.py: fuse", "ranx/fusion/__init__.py: fusion_switch", "ranx/normalization/__init__.py: norm_switch"]}
{"id": "C52", "title": "Rank-based processing of unsorted runs uses insertion order", "statement": "rrf, isr, rbc, bordafuse, condorcet, posfuse etc. and rank/borda norm use the stored order of each run's results: for a run that was filled with add_score and never sorted this is insertion order, so a lower-scored document can receive the higher rank weight; after sort() the ranks are by score.", "quantifier": "all runs and histories", "why_tests_cant": "depends on history", "anchors": ["ranx/meta/fuse.py", "ranx/fusion/rrf.py"]}
{"id": "C53", "title": "Trained probabilities are relative frequencies", "statement": "posfuse/slidefuse training yields for each position the fraction of training queries (with a result at that position) whose result there is relevant, so in [0,1]; probfuse and segfuse training average relevance over each segment, in [0,1].", "quantifier": "all qrels and runs", "why_tests_cant": "all sizes, segment boundaries", "anchors": ["ranx/fusion/common.py: estimate_probs", "ranx/fusion/probfuse.py", "ranx/fusion/segfuse.py", "ranx/fusion/slidefuse.py", "ranx/fusion/posfuse.py"]}
{"id": "C54", "title": "SlideFuse averages over a window that stays inside the ranking", "statement": "slidefuse scores position p with the mean of the trained probabilities over positions max(p-w,0)..min(p+w,N-1); with w=0 it equals posfuse; all values stay within the range of the probabilities.", "quantifier": "all positions, windows, probabilities", "why_tests_cant": "boundaries", "anchors": ["ranx/fusion/slidefuse.py"]}
{"id": "C55", "title": "Segments partition every ranking", "statement": "ProbFuse's and SegFuse's segments assign every rank position to exactly one segment, in order, for every result length up to the documented maximum.", "quantifier": "all lengths and segment counts", "why_tests_cant": "boundaries of ceil-divisions", "anchors": ["ranx/fusion/probfuse.py", "ranx/fusion/segfuse.py"]}
{"id": "C56", "title": "MAPFuse and BayesFuse scores follow their formulas", "statement": "mapfuse gives the sum over retrieving runs of map_i/rank; bayesfuse sums the log-odds of the rank interval, using log(0.001/0.999) for runs missing the document; results longer than the last trained cut-off (1000) make bayesfuse index out of range.", "quantifier": "all runs", "why_tests_cant": "boundaries", "anchors": ["ranx/fusion/mapfuse.py", "ranx/fusion/bayesfuse.py"]}
{"id": "C57", "title": "optimize_fusion returns a best configuration of its grid", "statement": "The parameters returned by every grid-search optimiser belong to the trial grid and no other trial has a strictly larger metric score on the training data (the last best is returned), provided scores are non-negative numbers; the report lists every trial with its score. It is also stated which exception a call raises (an unknown method, missing runs, a misspelt option, ...), and what the call leaves behind: the qrels and, where no normalisation copies them, the runs are at most sorted.", "quantifier": "all grids, qrels, runs and score functions", "why_tests_cant": "all score landscapes incl. ties", "anchors": ["ranx/fusion_optimization/*.py", "ranx/meta/optimize_fusion.py"]}
{"id": "C58", "title": "The weight grid contains every convex combination on the step lattice", "statement": "optimize_weights should try every weight vector whose entries are multiples of step and sum to one. With exact arithmetic it does; with binary64 sums the test sum == 1.0 drops some of them (e.g. 0.6,0.3,0.1 at step 0.1).", "quantifier": "all steps and numbers of runs", "why_tests_cant": "floating point sums of all combinations", "anchors": ["ranx/fusion_optimization/optimize_weights.py: get_possible_weights, get_trial_configs"]}
{"id": "C59", "title": "The optimisation report highlights a best trial", "statement": "The row highlighted in OptimizationReport has the maximum score; it is the first such trial while the optimiser returns the last one, so the two can differ on ties.", "quantifier": "all score lists", "why_tests_cant": "ties", "anchors": ["ranx/data_structures/optimization_report.py", "ranx/fusion_optimization/*.py"]}
{"id": "C60", "title": "Win/tie/loss counts partition the queries and mirror each other", "statement": "For NaN-free scores W+T+L equals the number of queries, W(a,b)=L(b,a) and T(a,b)=T(b,a); with NaN scores the total is smaller.", "quantifier": "all score arrays", "why_tests_cant": "all arrays", "anchors": ["ranx/meta/compare.py: compare"]}
{"id": "C61", "title": "Pairwise comparisons are symmetric and complete", "statement": "For fisher and student, comparisons contains an entry for every unordered pair of distinct model names and lookup does not depend on the order of the pair; runs with equal names (or an unnamed run colliding with run_i) silently share one entry.", "quantifier": "all lists of runs and names", "why_tests_cant": "all names", "anchors": ["ranx/statistical_tests/__init__.py", "ranx/data_structures/frozenset_dict.py", "ranx/meta/compare.py"]}
{"id": "C62", "title": "Fisher's randomization p-value is a frequency and detects identity", "statement": "For every random stream the p-value is (number of permutations whose absolute mean difference is at least the observed one)/n_permutations, hence in [0,1]; identical score arrays give p=1; swapping control and treatment under mirrored permutations gives the same p; significant iff p<=max_p.", "quantifier": "all score arrays and random streams", "why_tests_cant": "all random streams", "anchors": ["ranx/statistical_tests/fisher_randomization_test.py"]}
{"id": "C63", "title": "Report superscripts mark exactly the significantly outperformed models", "statement": "A cell of the text table shows the mean of the model rounded to the configured number of decimals (as a percentage, multiplied by 100, with two decimals less), followed by the superscript letters of exactly those other models whose mean is strictly lower and whose difference is significant; the LaTeX phantoms are the letters of the remaining ones; letters identify rows unambiguously; more than 26 models raise IndexError.", "quantifier": "all comparisons", "why_tests_cant": "all sizes", "anchors": ["ranx/data_structures/report.py: to_table, format_score, get_superscript_for_table, get_superscript_for_latex, get_phantoms_for_latex"]}
{"id": "C64", "title": "LaTeX boldface marks a best model", "statement": "In to_latex the bold model has the maximal rounded score of the metric, the first one among ties, and none is bold when no score is positive; every cell shows the formatted mean, in bold iff the model is that best one, with its superscripts and phantoms.", "quantifier": "all score tables", "why_tests_cant": "all tables", "anchors": ["ranx/data_structures/report.py: to_latex"]}
{"id": "C65", "title": "Report.to_dict returns all results of the comparison", "statement": "to_dict contains for every model its scores and, against each other model, the p-value and win/tie/loss of every metric, provided no model is called stat_test, metrics or model_names.", "quantifier": "all reports", "why_tests_cant": "all names", "anchors": ["ranx/data_structures/report.py: to_dict"]}
{"id": "C66", "title": "Metric labels exist and distinguish metrics", "statement": "Report labels exist for all supported metrics with optional cut-off and level and distinct metric strings get distinct labels; rbp@P and zero-padded persistences have no label (KeyError); ranxhub labels drop the level and collide.", "quantifier": "all metric strings", "why_tests_cant": "all strings", "anchors": ["ranx/data_structures/report.py: get_metric_label", "ranx/ranxhub.py: get_metric_label"]}
{"id": "C67", "title": "Interrupted downloads never corrupt the cache", "statement": "For every sequence of crashes and retries, a file appears in the ranxhub cache only through an atomic rename of a completed transfer, and a resumed download equals the remote content, provided the server honours Range requests, the remote file does not change and streams are not silently truncated; a silently truncated stream is installed in the cache.", "quantifier": "all crash points and retry histories", "why_tests_cant": "crash points", "anchors": ["ranx/io.py: download", "ranx/downloader.py: download_file, downloader"]}
{"id": "C68", "title": "compare scores every model on the same queries and reports the means", "statement": "For qrels and runs with any edit history holding the same queries (or with make_comparable), supported metrics and fisher or student, compare raises nothing: models are called by the names of the runs (run_1, run_2, ... without a name) in the given order, every model is scored on the queries of the qrels in one common order, the reported value of a model is the mean of its per-query scores, and every run ends up with these scores saved in it; under a name shared by several runs the last one is reported.", "quantifier": "all qrels, lists of runs, edit histories, metrics and names", "why_tests_cant": "all edit histories, query sets and names", "anchors": ["ranx/meta/compare.py: compare", "ranx/meta/evaluate.py: evaluate"]}
{"id": "C69", "title": "JSON and LZ4 files round-trip", "statement": "from_file of the file written by save(kind='json') holds exactly the same queries (also those without documents), documents and values for qrels and for runs with finite scores; a score that is infinite or NaN comes back as NaN; the LZ4 format of runs keeps everything; the run name is not stored. save touches no other file.", "quantifier": "all containers with at least one document, all paths and ways of asking for the kind", "why_tests_cant": "all contents, ids and special values", "anchors": ["ranx/data_structures/run.py: Run.save, Run.from_file", "ranx/data_structures/qrels.py: Qrels.save, Qrels.from_file", "ranx/io.py: save_json, load_json, save_lz4, load_lz4"]}
{"id": "C70", "title": "Keyword arguments of from_parquet do not reach pandas", "statement": "Qrels.from_parquet and Run.from_parquet with a non-empty pd_kwargs raise ValueError whatever the values, unless the first key happens to be the name of a parquet engine (in which case a single entry has no effect): the dictionary is unpacked as positional arguments.", "quantifier": "all keyword dictionaries, files and column names", "why_tests_cant": "all dictionaries", "anchors": ["ranx/data_structures/run.py: Run.from_parquet", "ranx/data_structures/qrels.py: Qrels.from_parquet"]}
{"id": "C71", "title": "Overlapping downloads of one run are not protected", "statement": "A run that is in the ranxhub cache is only read, without any request or change of a file; but two processes that download the same run at the same time can leave a corrupt cache file even if the server is well-behaved (there is no lock and both use the same temporary file).", "quantifier": "all interleavings", "why_tests_cant": "schedules of two processes", "anchors": ["ranx/io.py: download", "ranx/downloader.py: downloader"]}
{"id": "C72", "title": "Saving a run for ranxhub and loading it back", "statement": "ranxhub.save adds, for every mean score of the run, label -> mean to run/results of the run card (the last metric with a given label wins, nothing else in the card changes) and writes both files only when this succeeds; a run saved this way and loaded with Run.from_ranxhub after any history of non-overlapping downloads has the same results, the name given in the run card, and the completed card as metadata. Not every run can be saved (dcg has no label, an empty `results:` entry is refused) and metrics that differ only in relevance level collide.", "quantifier": "all runs, run cards, file systems and download histories", "why_tests_cant": "arbitrary run cards, score tables and download histories", "anchors": ["ranx/ranxhub.py: save", "ranx/data_structures/run.py: from_ranxhub", "ranx/io.py: download, save_lz4, load_lz4"]}
{"id": "C73", "title": "The precision-recall plot shows the mean interpolated precision", "statement": "plot(return_graph=False) has, for every run in the given order, eleven rows: the run's name (run_1, run_2, ... or run when unnamed), recall 0, 0.1, ..., 1, and the mean over the judged queries of the largest precision at any rank whose recall is at least that level (0 when there is none); each curve lies in [0,1] and never increases; judgments and runs are at most reordered; an empty list of runs raises ValueError. Queries are paired by position and not compared (refuted that they are checked).", "quantifier": "all judgments, lists of runs over the same queries, sort and thread orders", "why_tests_cant": "arbitrary judgments, rankings with ties and numbers of runs", "anchors": ["ranx/meta/plot.py: plot", "ranx/metrics/interpolated_precision_at_recall.py"]}
{"id": "C74", "title": "Different ranxhub runs are cached in different files", "statement": "The run with id c1/.../cn (components non-empty, not . or .., without /) is cached in ~/.ranx/c1/.../cn.rh and downloaded to ~/.ranx_tmp/c1/.../cn.rh; different such ids never share a cache or a temporary file, and no cache file is a temporary file; different ids always have different URLs; ids of letters, digits and _.-~/ appear unchanged in the URL, and no URL contains other characters than these, % and :. For arbitrary ids this fails: empty and . components before the last are dropped, so a/b, a//b and a/./b share a file, ids with .. or a leading / leave the cache directory, and the file of one id can stand where another needs a directory.", "quantifier": "all ids and home directories", "why_tests_cant": "arbitrary pairs of ids", "anchors": ["ranx/io.py: home_path, tmp_path, get_path, get_tmp_path, get_url"]}
{"id": "C75", "title": "The plain TREC readers agree with from_file", "statement": "On every text file whose lines end with newline, carriage return or both, utils.qrels_file_to_dict and utils.run_file_to_dict return exactly the dictionary (or fail as) Qrels.from_file and Run.from_file read; in particular they read back every saved qrels and run with white-space-free ids (without queries that have no document). Texts with VT, FF, FS, GS or RS characters can be read differently (refuted).", "quantifier": "all texts, qrels, runs and paths", "why_tests_cant": "arbitrary texts", "anchors": ["ranx/utils.py: qrels_file_to_dict, run_file_to_dict", "ranx/data_structures/qrels.py: from_file", "ranx/data_structures/run.py: from_file"]}
{"id": "C76", "title": "Counting metrics are exact or correctly rounded in double precision", "statement": "Computed in IEEE binary64 (not idealised reals), hits and hit_rate return exactly the textbook value, and precision, recall, r-precision and reciprocal rank return the textbook fraction rounded exactly once to the nearest double; the result is between 0 and 1, is 0.0 only if the exact score is 0 and is 1.0 only if the exact score is 1.", "quantifier": "all lists of queries with judgments and levels up to 2^53 and up to 2^52 documents, all cut-offs, every schedule of the parallel loop, every implementation of ln/log2/pow", "why_tests_cant": "A test compares a few scores with a tolerance; that no input of any size accumulates an error, overflows or rounds to 0 or 1 wrongly needs a proof about floating point.", "anchors": ["ranx/metrics/hits.py: _hits", "ranx/metrics/hit_rate.py: _hit_rate", "ranx/metrics/precision.py: _precision", "ranx/metrics/recall.py: _recall", "ranx/metrics/r_precision.py: _r_precision", "ranx/metrics/reciprocal_rank.py: _reciprocal_rank"]}
{"id": "C77", "title": "f1 and average precision stay in [0, 1] and are accurate in double precision", "statement": "Computed in IEEE binary64, f1 agrees with the exact harmonic mean up to six roundings and average precision agrees with the exact value up to (retrieved documents + 2) roundings; both are between 0 and 1, are 0.0 exactly when the exact score is 0 and are exactly 1.0 whenever the exact score is 1.", "quantifier": "all lists of queries with judgments and levels up to 2^53 and up to 2^52 documents, all cut-offs, every schedule", "why_tests_cant": "A rounding error that pushes a score above 1 or makes a perfect run score 0.9999999999999999 depends on the exact operands; no finite set of tests excludes it.", "anchors": ["ranx/metrics/f1.py: _f1", "ranx/metrics/average_precision.py: _average_precision"]}
{"id": "C78", "title": "ndcg in double precision: ideal rankings score exactly 1.0, accuracy, and the limits of [0, 1]", "statement": "Computed in IEEE binary64 with any log2 accurate to c roundings (and exact powers of two for the Burges variant, grades at most 53), ndcg agrees with dcg / ideal dcg up to 2c + 3 + (lengths) roundings, is never negative and is 0.0 only for a zero score; a ranking that lists the relevant documents first in order of judgment scores exactly 1.0 (as do recall, average precision, r-precision and reciprocal rank); with binary relevance and a monotone log2 the score never exceeds 1; with graded judgments it can exceed 1 (refuted, even with a correctly rounded log2).", "quantifier": "all queries with judgments up to 2^53 and up to 2^52 documents, all cut-offs, all accurate log2 implementations, every schedule", "why_tests_cant": "Which rankings round above 1.0 or below 1.0 depends on the order of additions for arbitrary lengths and grades.", "anchors": ["ranx/metrics/ndcg.py: _dcg", "ranx/metrics/ndcg.py: _idcg", "ranx/metrics/ndcg.py: _ndcg"]}
{"id": "C79", "title": "Every object a program can hold is well-formed, and evaluates correctly", "statement": "Whatever sequence of public calls (construction, loading from any file format, data frame or ranxhub file, add/add_score/add_multi/sort/make_comparable, setting attributes, save, normalize, fuse, evaluate, compare, optimize_fusion) produced a Run or Qrels, and whether the calls succeeded or raised (add calls with lists of matching shape), the object has every query once and every document once per query, its sorted flag is only set when it really is sorted, and evaluate on any two such objects returns and saves the metric values of the highest-score-first ranking of each query.", "quantifier": "all finite histories over the whole public API, all schedules, all argsort tie orders", "why_tests_cant": "unbounded compositions of API calls, including calls that raise half-way", "anchors": ["ranx/data_structures/run.py", "ranx/data_structures/qrels.py", "ranx/meta/evaluate.py", "ranx/meta/fuse.py", "ranx/meta/compare.py", "ranx/meta/optimize_fusion.py"]}
{"id": "C80", "title": "Reported means stay in [0,1] and are accurate in binary64", "statement": "In IEEE binary64 arithmetic, the mean that evaluate reports for hit_rate, precision, recall, f1, r-precision, mrr and map is a finite number between 0 and 1; it is 0 exactly when every query scored 0, exactly 1.0 when every query scored 1, and agrees with the exact mean of the exact scores up to a relative error of (list length + number of queries + 6) roundings. The same holds for the mean of any such scores whatever the order in which they are added up (numpy adds pairwise).", "quantifier": "all qrels and runs whose document ids do not collide under the float64 key, with up to 2^52 queries and results per query, all cut-offs up to 2^53, all lists of metric strings, all summation orders", "why_tests_cant": "rounding errors depend on the numbers of queries and results and on the order of summation; a test checks a few means against a tolerance.", "anchors": ["ranx/meta/evaluate.py: evaluate, compute_metrics", "ranx/metrics/*.py"]}
{"id": "C81", "title": "Score normalisation in binary64", "statement": "In IEEE binary64 arithmetic, for runs with finite scores of magnitude up to 2^200: min-max normalisation keeps the queries and documents, returns the correctly rounded value of rnd(s-lo)/max(rnd(hi-lo),1e-9), always between 0 and 1, exactly 0 for the lowest and exactly 1 for the highest score (range at least 1e-9), never swaps two documents, and keeps them apart if their scores differ by 2^-49 of the range; the inverted variant does the same with the order reversed; max normalisation gives at most 1, exactly 1 for the highest score (if at least 1e-9) and never swaps documents; rank normalisation gives values in (0,1], exactly 1 for the first, strictly decreasing for up to 2^50 results. Different scores may become equal, and sum normalisation may exceed 1 by far (both shown by examples).", "quantifier": "all runs with finite scores up to 2^200, all queries and documents, all schedules", "why_tests_cant": "rounding, cancellation and ties depend on the scores; tests use a handful of short decimal scores", "anchors": ["ranx/normalization/min_max_norm.py", "ranx/normalization/max_norm.py", "ranx/normalization/rank_norm.py", "ranx/normalization/sum_norm.py", "ranx/normalization/common.py"]}
{"id": "C82", "title": "Perfect scores mean perfect rankings, zero means nothing found", "statement": "A query scores 1 exactly if its ranking is perfect in the sense of the metric: precision@k - there are k documents and the first k are relevant; recall@k - all relevant documents are among the first k; f1 - both; r-precision - the first R documents are relevant; mrr - the first document is relevant; hit_rate@k - some relevant document is among the first k; map@k - the R relevant documents come first and k >= R; ndcg@k (both gains) - at no position before the cut-off a document is ranked while one with a higher gain is ranked later or missing. A query scores 0 exactly if no relevant document is among the first k, and otherwise its score is positive.", "quantifier": "all judgments, rankings, levels and cut-offs", "why_tests_cant": "an equivalence over all rankings: tests can check that ideal rankings score 1, not that nothing else does", "anchors": ["ranx/metrics/*.py", "ranx/meta/evaluate.py: evaluate"]}
{"id": "C83", "title": "Fusion respects what all runs agree on", "statement": "If every run retrieves both or neither of two documents a and b of a query and scores a at least as high as b, then comb_sum, comb_max, comb_min, comb_med, comb_anz, comb_mnz, comb_gmnz and (weights >= 0) wsum, wmnz and mixed give a at least the fused score of b; if some run scores a strictly higher, then sum, anz, mnz, gmnz and the weighted ones (weights > 0) rank a before b. Without negative scores it is enough for sum, max, mnz, gmnz (gamma >= 0), wsum, wmnz and mixed that a is retrieved, with at least the score of b, wherever b is; for anz, med and min this is not enough: being found by one more run can put a below b. If every run that ranks b ranks a no later, then isr, log_isr, logn_isr, rrf (k >= 0), rbc (0 <= phi <= 1), bordafuse and weighted bordafuse give a at least the fused score of b, and, except for log_isr, rank a first if some run ranks it strictly before b. log_isr gives 0 to each document found by one run only.", "quantifier": "all lists of runs, queries, pairs of documents, weights and parameters", "why_tests_cant": "a comparison between two documents over all runs at once; tests check single fused scores", "anchors": ["ranx/fusion/comb_*.py", "ranx/fusion/isr.py", "ranx/fusion/log_isr.py", "ranx/fusion/logn_isr.py", "ranx/fusion/rrf.py", "ranx/fusion/rbc.py", "ranx/fusion/bordafuse.py", "ranx/fusion/weighted_bordafuse.py", "ranx/fusion/wsum.py", "ranx/fusion/wmnz.py", "ranx/fusion/mixed.py"]}
{"id": "C84", "title": "Fusion in binary64 arithmetic", "statement": "For runs whose scores are finite binary64 numbers of at most 2^200 in absolute value: every fused score is finite and the fused run holds, per query, exactly the documents of the union, sorted by decreasing score. comb_sum adds the scores run by run with one rounding per addition, and its error is at most (1+2^-53)^(n-1) - 1 times the sum of the absolute values; comb_max and comb_min are exact (with -1e9 and 1e9 standing in for the runs that miss the document); comb_med, comb_anz, comb_mnz, wsum (weights up to 2^200), rrf (0 <= k <= 2^52, with relative error at most (1+2^-53)^n - 1) and isr are the stated rounded formulas. Rounding never reverses what all runs agree on: where every run holds both or neither document and scores a at least as high as b (or, for rrf and isr, ranks a no later), a's fused score is at least b's. The order of the runs has no effect on max, min and med, nor, for two runs, on sum, anz and mnz; for three runs comb_sum can rank two documents with equal sums either way depending on the order of the runs, and a document scored at least as high everywhere and strictly higher by one run can be tied. The order of two runs has no effect on rrf and isr; with three runs and rrf's default k it can reverse two documents that have the same ranks (1, 2, 7 in different runs).", "quantifier": "all lists of up to 2^53 runs with finite binary64 scores, all queries, documents and weights in range", "why_tests_cant": "rounding errors depend on the scores of all runs and on their order; tests compare a few decimals", "anchors": ["ranx/fusion/comb_*.py", "ranx/fusion/wsum.py", "ranx/fusion/rrf.py", "ranx/fusion/isr.py", "ranx/data_structures/run.py:sort"]}
{"id": "C85", "title": "A query's score depends on its own judgments and ranking only; ids carry no meaning", "statement": "The score evaluate saves for a query under a metric is determined by that query's judgments and results: it is the same if documents are renamed consistently, if the scores are transformed by any increasing function, if the judgments and results are stored in another order, if any other queries, metrics or flags are part of the call, and in any environment (hash function, thread schedule), provided the query has no tied scores. Renaming queries and documents changes no mean and no standard deviation that evaluate returns. The mean over a set of queries is the size-weighted average of the means over the parts of any split. With tied scores, the order in which results were added decides the score.", "quantifier": "all qrels and runs a program can build, all metric strings, flags, renamings, increasing transformations, splits of the query set and environments", "why_tests_cant": "a leak between queries or a dependence on ids shows only for particular combinations of ids, hashes, schedules and orders", "anchors": ["ranx/meta/evaluate.py:evaluate", "ranx/data_structures/run.py:Run.to_typed_list", "ranx/data_structures/qrels.py:Qrels.to_typed_list", "ranx/metrics/*.py"]}
{"id": "C86", "title": "Unjudged and non-relevant documents", "statement": "For every metric but bpref, judgments below the relevance level of the metric do not matter: adding, changing (below the level) or removing them leaves what evaluate returns unchanged, i.e. an unjudged document counts exactly like one judged non-relevant. bpref ignores unjudged documents: removing them from the run leaves it unchanged. bpref does depend on non-relevant judgments.", "quantifier": "all qrels and runs a program can build, all metric strings and levels, all flags", "why_tests_cant": "the equality must hold for every set of judgments, including the order in which they are stored", "anchors": ["ranx/meta/evaluate.py:evaluate", "ranx/metrics/common.py:clean_qrels", "ranx/metrics/bpref.py:_bpref", "ranx/metrics/*.py"]}
{"id": "C87", "title": "Metrics with a cut-off look at the best k results only", "statement": "For hits, hit_rate, precision, recall, f1, mrr, map, dcg, dcg_burges, ndcg and ndcg_burges with a cut-off k > 0, evaluate returns the same for a run and for the run that holds only the best n >= k results of every query: anything ranked below the cut-off has no influence. The cut-offs of r-precision@k and bpref@k are accepted but have no effect.", "quantifier": "all qrels and runs a program can build without tied scores, all cut-offs k <= n, all levels and flags", "why_tests_cant": "an off-by-one at the cut-off shows only for particular rankings", "anchors": ["ranx/meta/evaluate.py:evaluate", "ranx/metrics/*.py"]}
{"id": "C88", "title": "Normalising and fusing use only the query's own results", "statement": "What normalisation and fusion (every norm, every method) return for a query is determined by the results the runs hold for that query: other queries, their number and their results have no influence, nor have the hashes of the ids and the schedule of the parallel loops. For Borda normalisation, BordaFuse and weighted BordaFuse this needs the runs to store their queries in the same order; otherwise the results of one query are scored with the candidates of another.", "quantifier": "all numbers (reals, binary64, ...), all lists of runs, all norms, methods and parameters, all hash functions and schedules", "why_tests_cant": "a leak between queries shows only for particular combinations of queries, ids, hashes and schedules", "anchors": ["ranx/normalization/*.py", "ranx/fusion/*.py", "ranx/meta/fuse.py:fuse"]}
{"id": "C89", "title": "Normalisation undoes a change of scale", "statement": "If the scores of a query in one run are a*s+b (a > 0) of those in another, min-max, inverted min-max, sum, zmuv and rank normalisation return the same results for both, and so does max normalisation if b = 0; hence fusing after one of these norms, with any method, does not depend on the scale of any run's scores. Normalising twice equals normalising once (all norms but the inverted ones). This needs the denominator (highest score, spread, total excess, standard deviation) to be at least 10^-9, since smaller ones are replaced by 10^-9.", "quantifier": "all lists of runs, all positive factors and all shifts (different for each run), all methods and parameters", "why_tests_cant": "equality must hold for every scale and every list of scores", "anchors": ["ranx/normalization/*.py", "ranx/meta/fuse.py:fuse"]}
{"id": "C90", "title": "evaluate uses lists prepared by the caller as they are", "statement": "When qrels and run are passed as typed lists of (document id, value) arrays, evaluate scores position i of the one against position i of the other, taking the listed order of the results as the ranking; it returns the metric values, saves nothing and changes neither argument. Passing the lists that Qrels.to_typed_list and Run.to_typed_list return (either or both) gives the same result as passing the objects with save_results_in_run=False. The caller is responsible for the order: unsorted results are not sorted, and results beyond the last list of judgments are ignored silently.", "quantifier": "all lists of judgments and results with distinct ids per query, all metric strings and flags; all objects with the same query ids, for any number type", "why_tests_cant": "every list and every metric", "anchors": ["ranx/meta/evaluate.py:evaluate, convert_qrels, convert_run, check_keys", "ranx/data_structures/run.py:Run.to_typed_list", "ranx/data_structures/qrels.py:Qrels.to_typed_list"]}
{"id": "C91", "title": "What is saved and loaded again evaluates to the same numbers", "statement": "Take a Qrels and a Run that can be evaluated, save both to files (qrels: JSON, TREC or parquet; run: JSON, lz4, TREC or parquet) and load them with the matching reader, in the same or in another process (other string hashes, other tie order, other thread schedule). If the contents fit the formats (words as ids in TREC, finite scores in JSON, no query without documents in TREC and parquet) and no query has two equal scores, evaluate returns the same result for the loaded pair and for the original pair, for every list of metrics, with and without standard deviations, and saves the same score for every query.", "quantifier": "all qrels, runs, metrics, paths, file kinds, process environments", "why_tests_cant": "A test saves a few objects and reloads them in the same process; hashes, set orders and thread schedules of another process and all possible contents cannot be enumerated.", "anchors": ["ranx/data_structures/qrels.py:save,from_file,from_parquet", "ranx/data_structures/run.py:save,from_file,from_parquet", "ranx/meta/evaluate.py:evaluate"]}
{"id": "C92", "title": "Objects do not share results; the dictionaries handed out by get_doc_ids_and_scores are live", "statement": "In a program with any number of Run and Qrels objects, any sequence of constructor calls, methods, make_comparable, normalisation, fusion and evaluate acts as if every object were a separate value: a call changes only the objects it is called on (the run and the qrels in evaluate) and returned runs are new, so later edits of an input never change a fused or normalised run or vice versa. This holds although results are stored in mutable reference-typed dictionaries that add_score and set_relevance_level update in place. The dictionaries returned by get_doc_ids_and_scores are references to this storage: writing into a fresh one changes exactly that query of that object and never another object, whatever happened in between; after sort or make_comparable they are detached and a write changes nothing. Such a write does not reset the sorted mark, so a run can be marked sorted although it is not.", "quantifier": "all programs (lists of calls of any length) over any number of objects, all contents, all writes through references, all environments", "why_tests_cant": "Aliasing shows only for particular sequences of calls on particular pairs of objects; a test observes one sequence.", "anchors": ["ranx/data_structures/run.py:add_score,add_multi,sort,make_comparable,get_doc_ids_and_scores,to_typed_list", "ranx/data_structures/qrels.py:add_score,add_multi,sort,_set_relevance_level,get_doc_ids_and_scores,to_typed_list", "ranx/data_structures/common.py:add_bulk,sort_dict_by_key,sort_dict_by_value,sort_dict_of_dict_by_value", "ranx/meta/evaluate.py:evaluate", "ranx/meta/fuse.py:fuse"]}
{"id": "C93", "title": "What the reading methods tell about an object", "statement": "After any sequence of well-shaped method calls on a Run or a Qrels, created empty or from a dictionary, all reading methods tell the same nested map, the one the calls stand for: get_query_ids() (and keys()) lists every query once and no other; len(x) and x.size are the number of ids; the k-th dictionary of get_doc_ids_and_scores() is x[q] for the k-th id q; x[q] holds exactly the documents and scores of q and raises KeyError for a query the object does not have; to_dict() pairs the ids with these dictionaries in the same order. Qrels.from_ir_datasets(id) gives the judgments of the data set with the data set id as name, raises ValueError for a data set without judgments and otherwise passes on the library's exception.", "quantifier": "all histories of calls (of any length), all contents, all query ids asked for, all catalogues and data set ids", "why_tests_cant": "The methods read the storage separately; a test compares them on one object after one short history.", "anchors": ["ranx/data_structures/qrels.py:keys,get_query_ids,get_doc_ids_and_scores,size,__getitem__,__len__,to_dict,from_ir_datasets", "ranx/data_structures/run.py:keys,get_query_ids,get_doc_ids_and_scores,size,__getitem__,__len__,to_dict"]}
{"id": "C94", "title": "Metrics without grades see only which judgments reach the level; float judgments", "statement": "hits, hit_rate, precision, recall, f1, r-precision, mrr, map and bpref depend on the judgments only through which documents are judged and which reach the relevance level: two Qrels objects or dictionaries (or one of each) that agree on this for every level used give the same result, the same exception and the same run with saved scores, whatever the grades, the order of the judgments, the run argument and the options. Qrels rounds float judgments toward zero while a plain dictionary passed to evaluate keeps them; for these metrics both give the same numbers when the level is at least 1 or no judgment is negative. Metrics that use grades differ, and so does a level below 1 with a negative judgment. add_score with a score that int() refuses (NaN, infinity) raises but leaves an empty query behind, so a run that matched the qrels is refused afterwards.", "quantifier": "all pairs of judgment arguments that agree on the sides of the levels, all run arguments, metric lists and options, all number types for the first statement; all float judgments for the second", "why_tests_cant": "A test fixes the grades; that nine metrics ignore everything but the threshold is a statement about all pairs of judgments.", "anchors": ["ranx/metrics/common.py:clean_qrels", "ranx/metrics/hits.py:_hits", "ranx/metrics/bpref.py:_bpref", "ranx/data_structures/qrels.py:__init__,add_score,add_multi,from_dict", "ranx/meta/evaluate.py:evaluate", "ranx/utils.py:python_dict_to_typed_list"]}
{"id": "C95", "title": "The thread schedule has no observable effect", "statement": "Whatever the order in which the iterations of ranx's parallel loops take effect, evaluate, normalize, fuse, optimize_fusion, compare, plot and set_relevance_level return the same value (or raise in both cases) and leave their arguments the same. A whole program of such calls on any number of objects, each call under its own interleaving, ends in the same objects, also if it writes into the dictionaries handed out by the API.", "quantifier": "all pairs of schedules (every iteration of every parallel loop takes effect exactly once, in any order), all processes, inputs, options and programs, all number types", "why_tests_cant": "A test observes the interleavings that happen to occur on one machine; a race shows up in one run of many.", "anchors": ["ranx/meta/evaluate.py:evaluate", "ranx/metrics/*.py (prange drivers)", "ranx/data_structures/common.py", "ranx/data_structures/qrels.py:_set_relevance_level", "ranx/normalization/*.py", "ranx/fusion/*.py", "ranx/statistical_tests/fisher_randomization_test.py"]}
{"id": "C96", "title": "What a TREC file means; how numbers may be written", "statement": "Qrels.from_file and Run.from_file on any TREC text, plain or gzipped: the text is split at LF, CR LF and CR, the last line may lack its end; if every line has four white-space separated fields the last of which is an integer (runs: six, the fifth a float) the object holds exactly what the lines say, the last line counting for repeated (query, document) pairs, and a run is named as asked for or else by its first line. If a single line is malformed (also an empty line), or there is no line, ValueError is raised. An integer is what Python's int() accepts: optional sign, digits with single underscores between them, white space around. In metric strings a cut-off or level written in any such way gives the result of the plain number, and anything else is refused with ValueError; but whatever follows a second @ is silently ignored.", "quantifier": "all texts, file names and kinds; all metrics with a cut-off, all spellings, all inputs and options", "why_tests_cant": "A test tries a few well-formed files; the acceptance condition and the meaning range over all texts.", "anchors": ["ranx/data_structures/qrels.py:from_file", "ranx/data_structures/run.py:from_file", "ranx/meta/evaluate.py:extract_metric_and_params"]}
{"id": "C97", "title": "Evaluations do not disturb one another", "statement": "With make_comparable=False, after any series of evaluate calls on the same qrels and runs (objects, dicts or typed lists; any metrics and options; returning or raising), a call returns or raises exactly what it would have on the untouched objects, although the calls sort the objects in place and save results in the run. A call for several metrics returns, per metric, what a call for that metric alone returns (in order of first mention), and raises exactly when one of them alone raises, with the exception of the first that does. With save_results_in_run=True one call for several metrics leaves the run and the qrels exactly as one call per metric does. With make_comparable=True this fails: the run is sorted again at each call and tied documents may change places.", "quantifier": "all qrels and run arguments, all call histories, all metric lists and options, every runtime environment and number type", "why_tests_cant": "A test evaluates a handful of metrics in one order; the claim is about every history of calls.", "anchors": ["ranx/meta/evaluate.py:evaluate", "ranx/data_structures/run.py:to_typed_list", "ranx/data_structures/qrels.py:to_typed_list"]}
{"id": "C98", "title": "The remaining metrics in double precision", "statement": "In binary64 arithmetic, dcg and dcg_burges agree with the exact sums up to c + 1 + (number of documents looked at) roundings, where c bounds the error of log2; they are never negative and 0 only if the exact value is 0. bpref is a number between 0 and 1 that agrees, up to (relevant documents retrieved + 1) roundings, with a number within 2^-53 of the exact bpref; it is 0 exactly if the exact value is, and exactly 1.0 if the exact value is 1. Each of the 11 interpolated precisions is the exact interpolated precision rounded once, for the cut-off ceil(i*n/10) or, only if i*n ends in the digit 1, possibly one less; the 11 values lie in [0, 1] and never increase. The one-less case occurs: 2 of 3 relevant documents are taken for recall 0.7.", "quantifier": "all queries with exactly represented judgments and at most 2^52 documents (2^45 judged for interpolated precision), all cut-offs and relevance levels, every thread schedule", "why_tests_cant": "Rounding errors depend on every intermediate value; a test compares a few decimal digits on a few queries.", "anchors": ["ranx/metrics/ndcg.py:_dcg", "ranx/metrics/bpref.py:_bpref", "ranx/metrics/interpolated_precision_at_recall.py:_interpolated_precision"]}
{"id": "C99", "title": "Runs that rank alike fuse to that ranking", "statement": "If all runs store the same documents in the same order with strictly decreasing scores for a query, the fused run ranks them likewise, for every normalisation and every score-based or rank-based method with positive weights or admissible parameters; the inverted min-max normalisations reverse the order. Hence evaluate gives the fused run the same metrics as each of the runs. With norm='borda' this holds of score-based methods only: Borda normalisation stores the candidates in the iteration order of a Python set, so a rank-based method such as rrf can reverse two identical sorted runs.", "quantifier": "all lists of runs, queries, document lists, real scores, weights and parameters, all orders in which sets are iterated and ties are sorted", "why_tests_cant": "Agreement of a method with a unanimous ranking must hold for all scores and weights; a test uses a few.", "anchors": ["ranx/meta/fuse.py:fuse", "ranx/fusion/*.py", "ranx/normalization/*.py", "ranx/normalization/borda_norm.py:borda_norm", "ranx/meta/evaluate.py:evaluate"]}
{"id": "C100", "title": "Tuned parameters reproduce the tuned score", "statement": "Calling fuse on the same runs with the parameters optimize_fusion returned, and evaluate against the same qrels (as both objects are after the call), gives a largest score of the optimisation report. Parameters are returned as soon as some trial scores at least 0. For probfuse and slidefuse, which train inside optimize_fusion, this needs norm=None or normalised runs that are stored sorted; with a normalisation and unsorted runs the score is not reproduced, because training sorts the normalised copies while fuse normalises and reads the caller's runs as stored.", "quantifier": "all qrels, runs, normalisations, metrics, grids and all methods with hyper-parameters; real numbers and binary64", "why_tests_cant": "Holds for all score landscapes, ties and histories of the runs; the effect of in-place sorting shows only on unsorted runs.", "anchors": ["ranx/meta/optimize_fusion.py:optimize_fusion", "ranx/fusion_optimization/*.py", "ranx/meta/fuse.py:fuse", "ranx/meta/evaluate.py:evaluate"]}
{"id": "C101", "title": "Only the proportions of the weights matter", "statement": "Multiplying all weights of wsum, wmnz, mixed or w_bordafuse by the same number c multiplies every fused score by c and changes nothing else; for c > 0 and a fused run without ties every metric keeps its value. w_condorcet returns the very same run for c > 0. With equal weights c the scores are c times those of sum, mnz and bordafuse, and w_condorcet returns condorcet's results. Over real numbers: in binary64 scaling the weights can reverse two documents.", "quantifier": "all runs, normalisations, weights, factors, qrels and metrics; real numbers, with a counterexample in binary64", "why_tests_cant": "A test compares a few weight vectors; the claim is about all runs and factors, and the floating-point exception shows only on near ties.", "anchors": ["ranx/fusion/wsum.py:weighted_sum", "ranx/fusion/wmnz.py:wmnz", "ranx/fusion/mixed.py:mixed", "ranx/fusion/weighted_bordafuse.py:weighted_bordafuse", "ranx/fusion/weighted_condorcet.py:weighted_condorcet", "ranx/meta/fuse.py:fuse", "ranx/meta/evaluate.py:evaluate"]}
{"id": "C102", "title": "Normalising a run does not change its metrics", "statement": "For norm in max, min_max, sum, zmuv, and for rank when the run's results are stored sorted, evaluate gives normalize(run, norm) the same result as the run itself, for every metric, when no two documents of a query have the same score. Inverted min-max reverses the ranking; applying it twice restores it, so the metrics are the run's again. The rank norm reads the stored order: on an unsorted run it does change metrics.", "quantifier": "all runs and qrels that a program can hold (without ties), all metrics; real numbers, with counterexamples for the exceptions in binary64", "why_tests_cant": "All runs and metrics; the exception shows only on runs that were never sorted.", "anchors": ["ranx/meta/normalize.py:normalize", "ranx/normalization/*.py", "ranx/meta/evaluate.py:evaluate"]}
{"id": "C103", "title": "BordaFuse does not round", "statement": "For runs with finite scores that store the same queries in the same order, at most 2^26 runs and 2^26 candidates per query, bordafuse in binary64 returns a run that holds exactly the candidates and gives each the exact sum of its Borda points (n for the first of n candidates, n-1 for the second, ..., the rest shared by the documents a run does not hold). So the order of the runs has no effect (unlike comb_sum, C84), a document ranked at least as high by every run never scores lower, and it scores strictly higher as soon as one run ranks it strictly higher or alone. w_bordafuse is as exact for integer weights of absolute sum at most 2^26.", "quantifier": "all runs, run orders, documents and integer weights within the bounds; binary64", "why_tests_cant": "Every combination of runs and list lengths; a rounding error would appear only for some sums.", "anchors": ["ranx/fusion/bordafuse.py:bordafuse", "ranx/fusion/weighted_bordafuse.py:weighted_bordafuse", "ranx/fusion/comb_sum.py:_comb_sum"]}
{"id": "C104", "title": "Condorcet does not depend on rounding", "statement": "For runs with finite scores that store the same queries in the same order, with at most 2^53 candidates per query, condorcet in binary64 returns exactly the run it returns in real arithmetic: the same queries, documents, order and scores. The same holds for w_condorcet with integer weights of absolute sum at most 2^53. So the majority guarantees of C47 hold of the computed run. For larger weights they fail: with weights 2^53, 2^53 and 1 a document is put directly before another that runs of larger total weight prefer.", "quantifier": "all runs and integer weights within the bounds, all set orders and sorters; binary64", "why_tests_cant": "Every combination of runs, list lengths and weights; a rounding error would show only when two totals are close.", "anchors": ["ranx/fusion/condorcet.py:condorcet", "ranx/fusion/weighted_condorcet.py:weighted_condorcet"]}
