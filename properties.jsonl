{"id": "C01", "title": "Masses survive the trip through positions", "statement": "convert_positions_to_masses(convert_masses_to_positions(m)) returns exactly the strictly positive masses of m, in order; in particular it returns m itself when every mass is at least 1.", "quantifier": "every finite sequence of integer masses", "why_tests_cant": "an arbitrary-length sequence with arbitrary masses; tests sample three", "anchors": ["segeval/format.py:convert_positions_to_masses,segeval/format.py:convert_masses_to_positions"]}
{"id": "C02", "title": "Positions are run-length encoded exactly", "statement": "convert_positions_to_masses(p) returns positive masses that add up to len(p), and unit i and i+1 lie in the same segment exactly when their labels are equal; converting back yields labels 1..k with the same segment changes.", "quantifier": "every finite sequence of labels", "why_tests_cant": "all label patterns, including repeated and decreasing labels", "anchors": ["segeval/format.py:convert_positions_to_masses"]}
{"id": "C03", "title": "Boundary strings place boundaries exactly at segment ends", "statement": "For positive masses, boundary_string_from_masses(m) has one entry per gap between units (sum(m)-1 of them), and entry p holds the set {1} exactly when some proper prefix of m adds up to p+1, and is empty otherwise. A mass of zero in front breaks this (the last gap gets marked, or IndexError).", "quantifier": "every sequence of positive masses; the zero-mass exceptions for every sequence starting with zero", "why_tests_cant": "needs all sequences and all gaps", "anchors": ["segeval/format.py:boundary_string_from_masses"]}
{"id": "C04", "title": "Boundary strings determine the masses", "statement": "Two sequences of positive masses with the same boundary string are equal (unless one of them is empty), so no two different segmentations are ever identified by the BED metrics.", "quantifier": "every pair of positive mass sequences", "why_tests_cant": "injectivity over an infinite domain", "anchors": ["segeval/format.py:boundary_string_from_masses"]}
{"id": "C05", "title": "NLTK strings keep their boundaries", "statement": "For a one-character boundary symbol, convert_nltk_to_masses(s) returns positive masses adding to len(s)+1, and the corresponding boundary string has a boundary at gap p exactly when s[p] is the symbol.", "quantifier": "every string and every one-character symbol", "why_tests_cant": "all strings, all symbols", "anchors": ["segeval/format.py:convert_nltk_to_masses"]}
{"id": "C06", "title": "BED metrics do not depend on the encoding", "statement": "boundary_statistics, boundary_similarity, segmentation_similarity and boundary_confusion_matrix return the same result for the mass, position, nltk and sets encodings of the same pair of segmentations.", "quantifier": "every pair of segmentations with positive masses, every encoding, every n_t and weight triple", "why_tests_cant": "relates four input encodings over all inputs", "anchors": ["segeval/similarity/__init__.py:__boundary_statistics__", "segeval/format.py"]}
{"id": "C07", "title": "Window metrics do not depend on the encoding", "statement": "pk and window_diff return the same result for the mass, position (canonical labels) and nltk encodings of the same pair of segmentations.", "quantifier": "every pair of positive mass sequences, every window size, every flag", "why_tests_cant": "relates encodings over all inputs", "anchors": ["segeval/window/pk.py:__pk__", "segeval/window/windowdiff.py:__window_diff__"]}
{"id": "C08", "title": "No edits exactly when nothing differs", "statement": "boundary_edit_distance(a,b) returns three empty lists if and only if a and b are the same boundary string.", "quantifier": "every pair of boundary strings of equal length, every n_t", "why_tests_cant": "both directions over all inputs", "anchors": ["segeval/similarity/distance/multipleboundary.py:boundary_edit_distance"]}
{"id": "C09", "title": "Every difference is explained exactly once", "statement": "For each boundary type d, the number of gaps where only a has d equals the number of additions (d,'a') plus substitutions with type_a=d plus transpositions of d; likewise for b. Hence additions + 2*substitutions + 2*transpositions equals the total size of the symmetric differences.", "quantifier": "every pair of equal-length boundary strings, every n_t, every boundary type", "why_tests_cant": "a conservation law over all inputs", "anchors": ["segeval/similarity/distance/multipleboundary.py:__boundary_edit_distance__"]}
{"id": "C10", "title": "Transpositions are genuine and never overlap", "statement": "Every reported transposition (i,j,d) has i<j, spans at most n_t positions (j-i <= n_t-1), d occurs at exactly one of the two gaps in a and at exactly the other one in b, and no two reported transpositions of one type share a gap.", "quantifier": "every pair of equal-length boundary strings with small-integer types, every n_t, every set iteration order", "why_tests_cant": "all inputs and all iteration orders", "anchors": ["segeval/similarity/distance/multipleboundary.py:__transpositions__,__overlaps_existing__"]}
{"id": "C11", "title": "Substitutions are a cheapest pairing", "statement": "At each gap the substitutions pair off min(|A|,|B|) types that only a has with types that only b has, each type used at most once, and the total |type_a-type_b| is the least over all such pairings; unpaired types become additions on their own side.", "quantifier": "every pair of disjoint finite sets of types", "why_tests_cant": "optimality against all alternative pairings", "anchors": ["segeval/similarity/distance/multipleboundary.py:__additions_substitutions_sets__"]}
{"id": "C12", "title": "Edit counts are symmetric", "statement": "Swapping the arguments of boundary_edit_distance yields the same transpositions (up to order), the same number of additions with sides exchanged, the same number of substitutions and the same total substitution distance.", "quantifier": "every pair of equal-length boundary strings, every n_t, any iteration orders in the two runs", "why_tests_cant": "relational property over all inputs", "anchors": ["segeval/similarity/distance/multipleboundary.py:boundary_edit_distance"]}
{"id": "C13", "title": "Results do not depend on set iteration order", "statement": "The reported transpositions form the same set whatever order Python iterates the sets of candidate types in.", "quantifier": "every input and every pair of iteration orders", "why_tests_cant": "hash-order nondeterminism cannot be enumerated by tests", "anchors": ["segeval/similarity/distance/multipleboundary.py:__transpositions__"]}
{"id": "C14", "title": "Allowing longer transpositions only adds transpositions", "statement": "The transpositions reported for n_t are a prefix of those reported for any larger n_t; for n_t<=1 there are none.", "quantifier": "every input and every pair n_t <= n_t'", "why_tests_cant": "monotonicity in a parameter over all inputs", "anchors": ["segeval/similarity/distance/multipleboundary.py:__transpositions__,boundary_edit_distance"]}
{"id": "C15", "title": "The edit set is minimal", "statement": "With one boundary type and the default n_t=2 the reported edits are a minimum: no set of non-overlapping valid transpositions plus additions has fewer edits or smaller default cost. For n_t>=3 this fails.", "quantifier": "every pair of equal-length single-type boundary strings", "why_tests_cant": "optimality against every alternative edit set", "anchors": ["segeval/similarity/distance/multipleboundary.py:__boundary_edit_distance__ (docstring claims minimality)"]}
{"id": "C16", "title": "Boundary types are compared by value", "statement": "Transposition overlap is decided by type identity (`is`): for types in CPython's small-integer cache this is equality; outside it, overlapping transpositions can be reported.", "quantifier": "every input whose types lie in -5..256, every object-identity assignment consistent with CPython", "why_tests_cant": "object identity varies with allocation", "anchors": ["segeval/similarity/distance/multipleboundary.py:__overlaps_existing__"]}
{"id": "C17", "title": "BED does not fail on well-formed input", "statement": "boundary_edit_distance returns normally for all equal-length boundary strings (no KeyError, IndexError or failed assertion inside); if b is shorter than a by enough it raises IndexError.", "quantifier": "every pair of boundary strings, every n_t", "why_tests_cant": "totality over all inputs", "anchors": ["segeval/similarity/distance/multipleboundary.py:boundary_edit_distance"]}
{"id": "C18", "title": "boundary_statistics is internally consistent", "statement": "boundaries_all = 2*len(matches)+len(full_misses); len(full_misses)=additions+2*substitutions+2*transpositions; boundary_types is exactly the set of types present; pbs = number of gaps times number of types.", "quantifier": "every pair of boundary strings with at least one boundary", "why_tests_cant": "identities between outputs over all inputs", "anchors": ["segeval/similarity/__init__.py:__boundary_statistics__"]}
{"id": "C19", "title": "B lies between 0 and 1", "statement": "boundary_similarity returns a value v with 0<=v<=1, under exact arithmetic and under 28-digit Decimal rounding.", "quantifier": "every pair of comparable segmentations with at least one boundary, n_t>=1, default weights", "why_tests_cant": "range over all inputs and all roundings", "anchors": ["segeval/similarity/boundary.py:__boundary_similarity__"]}
{"id": "C20", "title": "B is 1 exactly for identical segmentations", "statement": "boundary_similarity(a,b)=1 if and only if a and b are identical (given at least one boundary). Two segmentations without any boundary cannot be compared: ValueError is raised although they are identical.", "quantifier": "every pair of comparable segmentations", "why_tests_cant": "both directions, all inputs", "anchors": ["segeval/similarity/boundary.py:__boundary_similarity__", "segeval/similarity/__init__.py:__boundary_statistics__"]}
{"id": "C21", "title": "B and S are symmetric", "statement": "boundary_similarity(a,b)=boundary_similarity(b,a) and segmentation_similarity(a,b)=segmentation_similarity(b,a), exactly, including errors.", "quantifier": "every pair of segmentations, n_t, default weights, any iteration orders", "why_tests_cant": "relational over all inputs", "anchors": ["segeval/similarity/boundary.py", "segeval/similarity/segmentation.py"]}
{"id": "C22", "title": "B is 0 exactly when nothing is right", "statement": "boundary_similarity(a,b)=0 if and only if there are no matches, no near misses and no substitutions (default weights).", "quantifier": "every pair of comparable segmentations", "why_tests_cant": "both directions, all inputs", "anchors": ["segeval/similarity/boundary.py:__boundary_similarity__"]}
{"id": "C23", "title": "Flags of B and S are coherent", "statement": "return_parts gives (numerator, denominator) whose quotient is the value returned without the flag; one_minus gives 1 minus that value; with integer weights (weight_a, weight_s, weight_t) the value is a float and one_minus raises TypeError.", "quantifier": "every pair of comparable segmentations", "why_tests_cant": "relates several calls on all inputs", "anchors": ["segeval/similarity/boundary.py", "segeval/similarity/segmentation.py"]}
{"id": "C24", "title": "S lies between 0 and 1 and dominates B", "statement": "0<=S<=1; S=1 iff identical; S>=B. The denominator is gaps*types^2 (not gaps*types as documented) so S is inflated for several types.", "quantifier": "every pair of comparable segmentations with at least one boundary", "why_tests_cant": "range over all inputs", "anchors": ["segeval/similarity/segmentation.py:__segmentation_similarity__"]}
{"id": "C25", "title": "Scaled weights never exceed plain weights", "statement": "Each transposition weighs (j-i)/n_t < 1 and each substitution |x-y|/(max-min+1) < 1 under the default scaling, so scaled counts lie strictly between 0 and the unscaled counts for non-empty edit lists; n_t=0 makes every BED metric raise although boundary_edit_distance accepts it.", "quantifier": "every edit list produced, every n_t", "why_tests_cant": "all inputs", "anchors": ["segeval/similarity/weight.py:weight_t_scale,weight_s_scale"]}
{"id": "C26", "title": "Bad input is rejected", "statement": "Segmentations of different length, and unsupported formats, make every BED and window metric raise SegmentationMetricError and never return a number.", "quantifier": "every pair of segmentations of different total mass; every unsupported format", "why_tests_cant": "all inputs", "anchors": ["segeval/similarity/__init__.py:__boundary_statistics__", "segeval/window/pk.py:__pk__", "segeval/window/windowdiff.py:__window_diff__"]}
{"id": "C27", "title": "The confusion matrix classifies every edit once", "statement": "In boundary_confusion_matrix(h,r): matrix[t][t] is the matches of t plus the weighted near misses of t; matrix[x][y] the substitutions x->y; matrix[None][t] the additions whose boundary is only in h, and matrix[t][None] those only in r; i.e. false positives are filed as misses and vice versa, contrary to matrix[predicted][actual].", "quantifier": "every pair of comparable segmentations", "why_tests_cant": "cell-wise characterisation over all inputs", "anchors": ["segeval/similarity/__init__.py:__boundary_confusion_matrix__"]}
{"id": "C28", "title": "Precision, recall and F lie in [0,1]", "statement": "precision, recall and fmeasure return values in [0,1] for every class and for both averages.", "quantifier": "every confusion matrix with non-negative entries, every class, every beta", "why_tests_cant": "all matrices", "anchors": ["segeval/ml/__init__.py:precision,recall,fmeasure"]}
{"id": "C29", "title": "Micro-averaged precision equals recall", "statement": "For every matrix, micro precision = micro recall = (sum of the diagonal)/(sum of all cells), or 0 if the diagonal sums to 0.", "quantifier": "every confusion matrix", "why_tests_cant": "all matrices", "anchors": ["segeval/ml/__init__.py:__value_micro_macro__"]}
{"id": "C30", "title": "F-measure is the weighted harmonic mean", "statement": "For a class with precision p and recall r both non-zero, fmeasure = (1+b^2)pr/(b^2 p+r); it lies between p and r; it is 0 if either is 0; it is p if p=r.", "quantifier": "every confusion matrix and class, every beta", "why_tests_cant": "all matrices, all beta", "anchors": ["segeval/ml/__init__.py:__fmeasure__"]}
{"id": "C31", "title": "A confusion matrix behaves like a two-level map", "statement": "After any history of reads, writes, increments and classes() calls, matrix[p][a] is the last value stored (0 if none) and classes() is exactly the set of keys that were used as p or a in a cell access; a bare matrix[p] is missed until the next cell write.", "quantifier": "every finite history of operations", "why_tests_cant": "all histories", "anchors": ["segeval/ml/__init__.py:ConfusionMatrix,_InnerConfusionMatrix"]}
{"id": "C32", "title": "Asking for a metric does not change cells", "statement": "precision/recall/fmeasure never change any cell value, nor any later micro average; but asking for an unknown class adds it to classes() and changes later macro averages.", "quantifier": "every matrix and every sequence of metric queries", "why_tests_cant": "all histories", "anchors": ["segeval/ml/__init__.py:__precision__,__recall__,__value_micro_macro__"]}
{"id": "C33", "title": "Window size is half the mean segment", "statement": "compute_window_size returns max(2, round(mean mass / 2)) over all masses of the segmentation or (nested) dataset; never less than 2.", "quantifier": "every collection of segmentations, every rounding function", "why_tests_cant": "all inputs", "anchors": ["segeval/window/__init__.py:__compute_window_size__"]}
{"id": "C34", "title": "Pk counts disagreeing probes", "statement": "With window k, pk returns the fraction of i in 0..n-k-1 for which exactly one of the two segmentations has a boundary between units i and i+k; return_parts gives that count and n-k.", "quantifier": "every pair of positive mass sequences of equal total, every k with 0<=k<n", "why_tests_cant": "functional correctness for all inputs", "anchors": ["segeval/window/pk.py:__pk__"]}
{"id": "C35", "title": "WindowDiff counts windows with differing boundary counts", "statement": "With window k<=255, window_diff returns the fraction of i in 0..n-k-1 for which the two segmentations have different numbers of boundaries between units i and i+k; with the Lamprier fix, the analogous count over the padded segmentation divided by n+k+1.", "quantifier": "every pair of positive mass sequences of equal total, every k", "why_tests_cant": "functional correctness for all inputs", "anchors": ["segeval/window/windowdiff.py:__window_diff__,__create_paired_window__"]}
{"id": "C36", "title": "Window metrics lie in [0,1] and vanish on identical input", "statement": "pk and window_diff lie in [0,1] for every window 0<=k<n and are 0 when both segmentations are equal. The Lamprier correction refuses position labels given as a string (TypeError).", "quantifier": "every pair of segmentations, every window", "why_tests_cant": "all inputs", "anchors": ["segeval/window/pk.py", "segeval/window/windowdiff.py"]}
{"id": "C37", "title": "Pk never exceeds WindowDiff", "statement": "For the same window, pk(h,r) <= window_diff(h,r) on mass-encoded segmentations. With arbitrary (repeating) position labels this can fail.", "quantifier": "every pair of positive mass sequences, every window", "why_tests_cant": "relates two metrics over all inputs", "anchors": ["segeval/window/pk.py", "segeval/window/windowdiff.py"]}
{"id": "C38", "title": "Window metrics are symmetric for a fixed window", "statement": "pk(h,r,window_size=k)=pk(r,h,window_size=k), same for window_diff; with the default window (from the reference) they are not symmetric.", "quantifier": "every pair of segmentations, every k", "why_tests_cant": "relational over all inputs", "anchors": ["segeval/window/pk.py", "segeval/window/windowdiff.py"]}
{"id": "C39", "title": "window_diff works for every window size", "statement": "For windows of at least 256 units, window_diff fails with AssertionError on every input long enough, because lengths are compared with `is`; pk does not.", "quantifier": "every pair of segmentations longer than the window, every k>=256", "why_tests_cant": "depends on CPython integer identity at unbounded sizes", "anchors": ["segeval/window/windowdiff.py:__window_diff__ (assert len(window) is window_size + 1)"]}
{"id": "C40", "title": "Degenerate windows", "statement": "If the window is at least as long as the text: pk returns 0; window_diff raises (0/0) when equal and returns 0 when longer.", "quantifier": "every pair of equal-length segmentations and every k>=n", "why_tests_cant": "all inputs", "anchors": ["segeval/window/pk.py", "segeval/window/windowdiff.py"]}
{"id": "C41", "title": "Flags of the window metrics", "statement": "one_minus returns 1-value; return_parts returns a pair whose quotient is the value; when both are given pk returns the parts and window_diff returns 1-value.", "quantifier": "every pair of segmentations, every window", "why_tests_cant": "relates several calls over all inputs", "anchors": ["segeval/window/pk.py", "segeval/window/windowdiff.py"]}
{"id": "C42", "title": "Pairwise values over a dataset are complete", "statement": "For one dataset a metric is evaluated exactly once per item and unordered pair of distinct coders, and stored under 'item,coder,coder'; with comma-free names nothing is lost, and the number of entries is the sum over items of c(c-1)/2. Names with commas can collide and lose entries.", "quantifier": "every dataset", "why_tests_cant": "all datasets, all name sets", "anchors": ["segeval/compute.py:compute_pairwise_values"]}
{"id": "C43", "title": "Pairwise values over two datasets", "statement": "For two datasets the result has exactly one entry for each item present in both and each pair (coder of the first, coder of the second); items in only one dataset are skipped.", "quantifier": "every pair of datasets with comma-free names", "why_tests_cant": "all datasets", "anchors": ["segeval/compute.py:compute_pairwise_values"]}
{"id": "C44", "title": "permuted doubles the comparisons", "statement": "With permuted=True a single dataset yields both orders of every pair; for a symmetric metric both entries agree.", "quantifier": "every dataset", "why_tests_cant": "all datasets", "anchors": ["segeval/compute.py:compute_pairwise_values"]}
{"id": "C45", "title": "Arguments are dispatched by shape", "statement": "Two segmentations are compared directly, a bare int n is treated as (n,), one dataset gives pairwise values, two datasets of different format raise; left-over named arguments raise TypeError; wrong counts, empty segmentations and empty datasets raise SegmentationMetricError.", "quantifier": "every argument list", "why_tests_cant": "all call shapes", "anchors": ["segeval/util/__init__.py:__fnc_metric__"]}
{"id": "C46", "title": "Actual agreement is a pooled ratio in [0,1]", "statement": "actual_agreement_linear is the sum of the numerators over all items and coder pairs divided by the sum of the denominators; in exact arithmetic it lies in [0,1] and is 1 exactly when all coders agree on all items; with Decimal rounding it still lies in [0,1] and is 1 under complete agreement.", "quantifier": "every fully coded dataset with at least two coders and a boundary in every comparison", "why_tests_cant": "all datasets", "anchors": ["segeval/agreement/__init__.py:__actual_agreement_linear__"]}
{"id": "C47", "title": "Pi and kappa never exceed 1", "statement": "fleiss_pi_linear and fleiss_kappa_linear are at most 1 whenever they return, and 1 under complete agreement (also with Decimal rounding); if every coder marks every gap they raise InvalidOperation; in exact arithmetic that is the only fully coded case where they do not return.", "quantifier": "every fully coded dataset", "why_tests_cant": "all datasets", "anchors": ["segeval/agreement/pi.py", "segeval/agreement/kappa.py"]}
{"id": "C48", "title": "Annotator bias of one item is non-negative", "statement": "artstein_poesio_bias_linear is the difference of the two chance agreements; in exact arithmetic it is >= 0 for a single item and, with one boundary type, 0 iff all coders place equally many boundaries. It can be negative with several items, positive with equally many boundaries of several types, and negative in the last digit with Decimal rounding.", "quantifier": "every single-item dataset", "why_tests_cant": "algebraic inequality over all inputs", "anchors": ["segeval/agreement/bias.py"]}
{"id": "C49", "title": "Agreement does not depend on order or names", "statement": "Renaming or reordering coders, items and codings does not change actual agreement, pi, kappa or bias in exact arithmetic; with Decimal rounding the iteration order of the set of coders can show in the last digits.", "quantifier": "every dataset, every ordering of coders", "why_tests_cant": "set order is nondeterministic", "anchors": ["segeval/agreement/__init__.py", "segeval/agreement/pi.py", "segeval/agreement/kappa.py"]}
{"id": "C50", "title": "Agreement guards", "statement": "kappa raises when an item has fewer than two codings; pi, kappa and bias raise when there are no items or items have different numbers of codings; with at most one coder neither actual agreement nor pi nor kappa returns a number.", "quantifier": "every dataset violating the guard", "why_tests_cant": "all datasets", "anchors": ["segeval/agreement/kappa.py", "segeval/agreement/pi.py"]}
{"id": "C51", "title": "Merging datasets loses and invents nothing", "statement": "a += b succeeds exactly when no (item, coder) coding is in both; afterwards the codings, items and coders are exactly the union and coders() names exactly those who coded something if it did before; on a duplicate it raises DataIOError, possibly leaving a partially merged. The same holds with a path prefix as used for folders.", "quantifier": "every pair of datasets whose dicts have distinct keys", "why_tests_cant": "all datasets", "anchors": ["segeval/data/__init__.py:Dataset.__iadd__"]}
{"id": "C52", "title": "a + b leaves its operands alone", "statement": "a + b changes no dataset that existed before (a and b among them), and no inner dict, whatever is shared and whether it succeeds or raises; if no two items of a share an inner dict it is the union of both and raises DataIOError exactly on a duplicate; a += b on a Dataset built from an existing dict of dicts writes b's codings through to its inner dicts.", "quantifier": "every heap, every pair of datasets, every aliasing between them", "why_tests_cant": "aliasing over all heaps", "anchors": ["segeval/data/__init__.py:Dataset.__add__,copy,__init__"]}
{"id": "C53", "title": "JSON round trip", "statement": "Writing with output_linear_mass_json (sorted keys) and reading back gives the same items, coders and masses, and the same properties plus segmentation_type; boundary_format and the coder set are lost. If ds.properties contains 'items' the file does not depend on the codings; with a foreign 'segmentation_type' it cannot be read.", "quantifier": "every dataset of masses with JSON properties", "why_tests_cant": "round trip over all datasets", "anchors": ["segeval/data/jsonutils.py:output_linear_mass_json,input_linear_mass_json"]}
{"id": "C54", "title": "JSON input is validated", "statement": "A file that is no JSON, or an object without segmentation_type 'linear' or without items, raises DataIOError; an object is accepted exactly if in addition its items are objects of objects of iterables, and then exactly its codings are loaded and all other entries become properties; other layouts raise AttributeError or TypeError, as the first item that cannot be read is no object or has a coding that cannot be iterated; lists and strings raise DataIOError unless they contain 'segmentation_type', then TypeError, as do all other documents.", "quantifier": "every JSON document", "why_tests_cant": "all documents", "anchors": ["segeval/data/jsonutils.py:input_linear_mass_json"]}
{"id": "C55", "title": "TSV rows become codings", "statement": "A table is read exactly when each row below the header has a name and integers; the coding of a name is its last row; no coder is recorded. Otherwise the first bad row decides: KeyError if it is empty, ValueError if a cell is no integer.", "quantifier": "every non-empty table of texts", "why_tests_cant": "all tables", "anchors": ["segeval/data/tsv.py:input_linear_mass_tsv"]}
{"id": "C56", "title": "Nested folders are loaded completely", "statement": "load_nested_folders_dict loads, per directory and stem, the last listed file with an accepted extension, its items prefixed by the directory path, and nothing else; if stems are distinct that is every accepted file; it raises only the exception of one of these files or DataIOError if two of them code one item by one coder.", "quantifier": "every directory tree and listing order", "why_tests_cant": "all trees", "anchors": ["segeval/data/__init__.py:load_nested_folders_dict"]}
{"id": "C57", "title": "Loaded datasets can be used for agreement", "statement": "A dataset read by input_linear_mass_json or input_linear_mass_tsv has an empty coder set, so every agreement function raises on it; a Dataset of the same items built in memory knows its coders and gives the value of the plain dict.", "quantifier": "every document and table, every comparison function and arithmetic", "why_tests_cant": "all documents", "anchors": ["segeval/data/__init__.py:get_coders", "segeval/data/jsonutils.py", "segeval/data/tsv.py"]}
{"id": "C58", "title": "summarize computes population statistics", "statement": "summarize returns (mean, std, variance, stderr, n) with mean = sum/n, variance = mean squared deviation (population), std = root of the variance and stderr = root of variance/n up to 28-digit rounding with stated error bounds; the variance is never negative, 0 exactly when all values are equal, at most a quarter of the squared spread, and the mean lies between the extremes (exactly in exact arithmetic; with 28 digits when the values share a decimal place and the sum has 28 digits, false otherwise); no values raise InvalidOperation, a float raises TypeError.", "quantifier": "every list of ints and Decimals", "why_tests_cant": "algebra over all lists", "anchors": ["segeval/util/math.py", "segeval/compute.py:summarize"]}
{"id": "C59", "title": "Decimal arithmetic keeps the guarantees", "statement": "Decimal results are the nearest 28-digit numbers with ties to an even last digit (floats: 53 bits); so rounding is monotone, odd, exact on 28-digit numbers and integers up to 10^28 and has relative error at most 5*10^-28; square roots have the same error, squares (rounded twice) at most 10^-27.", "quantifier": "every rational number", "why_tests_cant": "all values", "anchors": ["segeval/util/math.py"]}
{"id": "C60", "title": "Every exported name resolves", "statement": "Each public name of segeval is defined in exactly one module. After any history of attribute accesses and submodule imports, accessing a public name gives the object its module defines and binds the module's other public names, any other name is an AttributeError, and any submodule can be imported. The one exception is segeval.summarize (and import segeval.compute): it raises ImportError, and keeps raising it, until another public name has been accessed or another submodule imported.", "quantifier": "all public names, all submodules and all histories of accesses and imports", "why_tests_cant": "the import state depends on the whole history of accesses and imports; the test suite always imports other modules first and never sees the failing order", "anchors": ["segeval/__init__.py:module.__getattr__", "segeval/compute.py", "segeval/util/__init__.py"]}
{"id": "C61", "title": "B is accurate to 26 digits", "statement": "The Decimal value returned by boundary_similarity differs by at most 10^-26 from 1 - (additions + substitution distance/(max-min+1) + transposition span/n_t)/(edits + matches), and equals it in exact arithmetic.", "quantifier": "every pair of comparable segmentations with at least one boundary and at most 10^28 boundaries, every n_t, default weights", "why_tests_cant": "Tests compare a few values to fixed decimals; the error bound has to hold for every combination of four roundings.", "anchors": ["segeval/similarity/boundary.py:12-36", "segeval/similarity/weight.py:24-47", "segeval/similarity/__init__.py:54-80"]}
{"id": "C62", "title": "Agreed context adds no edits", "statement": "Putting the same boundaries before and after both segmentations leaves the additions and substitutions of the boundary edit distance as they are and only moves the transpositions along. If the context adds no boundary type outside the range of those used, numerator and denominator of B both grow by the number of boundaries of the context, and neither B nor S goes down.", "quantifier": "all pairs of boundary strings, all contexts, every n_t, any iteration order of Python's sets in either call", "why_tests_cant": "the claim compares two runs of the greedy search at different offsets for every pair of strings and every context", "anchors": ["segeval/similarity/distance/multipleboundary.py:17-127", "segeval/similarity/boundary.py:12-36", "segeval/similarity/segmentation.py"]}
{"id": "C63", "title": "Only distances between boundary types matter", "statement": "Renaming boundary types by an injective function turns the transpositions into those of the renamed types and leaves the numbers of additions per side and of substitutions as they are. If the function keeps distances, B and S with the default weights are unchanged, and with the unscaled weights they are unchanged by any injective renaming, errors included. With the default weights a renaming that changes distances can change B.", "quantifier": "all pairs of boundary strings, all injective renamings with types in the cached range, every n_t, every arithmetic, any set iteration orders", "why_tests_cant": "set iteration order and the search for the cheapest substitutions both depend on the numbers used as types", "anchors": ["segeval/similarity/distance/multipleboundary.py:17-127", "segeval/similarity/weight.py:24-47", "segeval/similarity/__init__.py:54-80"]}
{"id": "C64", "title": "Reading backwards", "statement": "Reversing both segmentations leaves Pk, WindowDiff (with and without the Lamprier correction) and the default window size unchanged. It leaves B and S of segmentations given by masses unchanged for n_t up to the default 2: without transpositions the edits are the same, and with n_t = 2 and one boundary type there are as many additions and transpositions. With n_t = 3, or with several boundary types and n_t = 2, B can change.", "quantifier": "all pairs of segmentations, all encodings, window sizes 0 <= k < n (WindowDiff k <= 255), default and unscaled weights, any set iteration orders", "why_tests_cant": "the greedy transposition search runs left to right and finds other edits in the mirror image; that their number agrees needs an optimality argument", "anchors": ["segeval/window/pk.py:17-63", "segeval/window/windowdiff.py:23-140", "segeval/similarity/distance/multipleboundary.py:17-127", "segeval/similarity/boundary.py:12-36"]}
{"id": "C65", "title": "Exchanging the two segmentations transposes the confusion matrix", "statement": "Exchanging the two segmentations gives the same transpositions, the same additions seen from the other side and the same substitutions reversed, even where several cheapest pairings exist. The confusion matrix is transposed, so the precision of one order is the recall of the other and F with beta is F with 1/beta, for each class and for both averages. Without near misses the values agree to the last digit in any arithmetic.", "quantifier": "all pairs of comparable segmentations, n_t > 0, default weights (off the diagonal any weights), any set iteration orders in either call, every class, every beta", "why_tests_cant": "ties between cheapest substitutions and set iteration order are resolved separately in the two calls; a test sees one of them", "anchors": ["segeval/similarity/distance/multipleboundary.py:17-127", "segeval/similarity/__init__.py:83-123", "segeval/ml/__init__.py"]}
{"id": "C66", "title": "Precision and recall of two segmentations", "statement": "The classes of boundary_confusion_matrix(h, r) are the boundary types used, and None if there are additions. Precision and recall are defined and in [0,1] for each class and for both averages, in Python's arithmetic. Precision of a type is what h and r share (a near miss counts span/n_t) divided by that plus substitutions plus the boundaries only in r; recall has those only in h. So, read as (hypothesis, reference), precision is not lowered by false positives, and a near miss by two positions earns more than one by one position.", "quantifier": "all pairs of comparable segmentations of at most 10^25 units, n_t > 0, default weights, any set iteration orders, every class", "why_tests_cant": "a formula for all inputs; the repository's tests only compare stored numbers", "anchors": ["segeval/similarity/__init__.py:83-123", "segeval/similarity/weight.py:40-47", "segeval/ml/__init__.py"]}
{"id": "C67", "title": "From the text of a table to codings", "statement": "The table loaders applied to the text of a file: csv.reader returns the rows that the text stands for under a grammar of plain and quoted fields (separators, line breaks and doubled quotes inside quotes, characters after a closing quote, empty lines, no final line break, a quote left open). Every text stands for exactly one list of rows. Line breaks \\r\\n and \\r are read as \\n. The file is accepted iff every row after the header is a name followed by integers, and every coder then has the masses of the last row of that name; the positions loader gives run lengths of the same cells. A stray double quote silently swallows the following lines. csv.Error is raised exactly if some field exceeds the limit, and then nothing is returned.", "quantifier": "all texts of characters U+0000..U+00FF, all separators other than quote and line breaks", "why_tests_cant": "the test suite reads one well formed file; quoting, line breaks and malformed quoting are infinitely many texts", "anchors": ["segeval/data/tsv.py:14-52", "segeval/data/tsv.py:55-77"]}
{"id": "C68", "title": "JSON texts", "statement": "json.loads returns a value exactly if the text is a document of a grammar of JSON (blanks, escapes, numbers, nesting; a repeated key keeps its first place and its last value), and then that value. A text stands for at most one value; every other text is rejected, unless it contains NaN, Infinity or an escape above U+00FF, which are left open. json.dumps(sort_keys, indent=4) writes printable ASCII and line breaks only, json.loads reads the value back up to the order of keys, two values have the same text iff they are equal up to the order of keys, and no proper prefix of the text of an object is a document.", "quantifier": "all texts of characters U+0000..U+00FF; all JSON values without duplicate keys, with any writer of floats that is right on the floats of the value", "why_tests_cant": "infinitely many texts and values, nested to any depth", "anchors": ["segeval/data/jsonutils.py:23-35", "segeval/data/jsonutils.py:62-68"]}
{"id": "C69", "title": "JSON files", "statement": "input_linear_mass_json accepts the text of a file iff it is a document that is an object with segmentation_type 'linear' and well formed items, and then loads exactly the codings of that object and keeps its other entries as properties; a text that is no document raises DataIOError, and only DataIOError, AttributeError and TypeError are raised. Writing a dataset of masses and reading the text back gives the same items, codings and properties. The file does not depend on the order of insertion; datasets with different codings have different files; a file cut off at any place is never read as data. A name that occurs twice in the text silently loses its first entry.", "quantifier": "all texts of characters U+0000..U+00FF; all datasets of masses with JSON properties; all places to cut", "why_tests_cant": "all files, all datasets and all truncations", "anchors": ["segeval/data/jsonutils.py:38-48", "segeval/data/jsonutils.py:51-92"]}
{"id": "C70", "title": "Pk and WindowDiff as distances", "statement": "With a fixed window size the error counts of Pk and of WindowDiff, with or without the Lamprier correction, obey the triangle inequality, and so do the exact quotients; the quotients rounded to 28 digits do not (in the last digit). A count of zero means that the segmentations are equal if the window is 1 or the correction is used with a window of at least 1. For every window k from 2 to n-1, hence for every computed window, there are two different segmentations of n units for which both metrics count no error.", "quantifier": "all segmentations of one text in any encoding, all window sizes (WindowDiff: up to 255)", "why_tests_cant": "three arbitrary segmentations and an arbitrary window; the last claim needs a witness for every n and k", "anchors": ["segeval/window/pk.py:17-63", "segeval/window/windowdiff.py:23-139"]}
{"id": "C71", "title": "What one boundary costs", "statement": "If two hypotheses have the same boundaries except at some gaps, the error counts of Pk and WindowDiff against any reference differ by at most the window size k for each of these gaps. One missing or superfluous boundary after g of n units costs WindowDiff exactly min(g, n-g, k, n-k) windows, and exactly k with the Lamprier correction. A boundary moved by d units costs at most 2 min(k, d). The corrected count is at most n+k-2 and this is attained, while the code divides by n+k+1: the corrected value never reaches 1.", "quantifier": "all segmentations, all sets of changed gaps, all window sizes (WindowDiff: up to 255)", "why_tests_cant": "arbitrary segmentations, changes and windows", "anchors": ["segeval/window/pk.py:17-63", "segeval/window/windowdiff.py:23-139"]}
{"id": "C72", "title": "B and S as distances", "statement": "For one boundary type and without transpositions (n_t = 1), B is the Jaccard index of the two sets of boundaries and 1 - S the share of the gaps that differ, in exact arithmetic; 1 - B and 1 - S then obey the triangle inequality. With the default n_t = 2 neither obeys it.", "quantifier": "all pairs and triples of segmentations with one boundary type in -5..256", "why_tests_cant": "three arbitrary segmentations of any length", "anchors": ["segeval/similarity/boundary.py:12-36", "segeval/similarity/segmentation.py:12-37", "segeval/similarity/__init__.py:25-80"]}
{"id": "C73", "title": "Confusion matrices as objects", "statement": "A program that makes several confusion matrices and interleaves operations on them leaves in each what its own operations alone would leave. In every reachable heap, reading or writing a row that the caller kept acts on the matrix it came from and on no other; a set returned by classes() never changes unless somebody adds to that very set; after any write classes() returns a new set with exactly the classes of the cells. Deleting an absent row or cell raises KeyError and changes nothing, deleting a present one removes exactly it, and a row kept after its deletion no longer affects the cells of any matrix. Two natural statements fail: matrices without cells all return one shared set, so a class added to it shows up in the others, and deleting a row or a cell leaves its class in classes() until the next write.", "quantifier": "all programs of matrix operations, including ones that keep and mutate rows and returned sets", "why_tests_cant": "arbitrary interleavings and aliasing", "anchors": ["segeval/ml/__init__.py:190-203", "segeval/ml/__init__.py:206-252"]}
{"id": "C74", "title": "Which transpositions are found", "statement": "The transpositions found by boundary_edit_distance are exactly the swaps within the span that no smaller accepted swap settles: they form the greedy set, of which there is only one, listed by span and then position. A swap within the span is left out only where a transposition of the same type touches one of its gaps, or where both gaps have types of their own on both sides.", "quantifier": "all pairs of boundary strings of equal length with types in -5..256, every n_t, every iteration order of sets", "why_tests_cant": "strings of any length with any sets of types, and all greedy sets", "anchors": ["segeval/similarity/distance/multipleboundary.py:76-161"]}
{"id": "C75", "title": "What a single error costs", "statement": "If two segmentations differ by one missing boundary, one boundary displaced within or beyond n_t, or one boundary of another type, the edits are the one addition, the one transposition, the two additions or the one substitution, and B and S drop by exactly the weight of these over the number of boundaries (B) or of gaps times types squared (S), wherever the error is. B ranks a near miss above a missing boundary, and that not below a far miss.", "quantifier": "all pairs of segmentations that differ by one such error, in any format, with types in -5..256, every n_t other than 0", "why_tests_cant": "the context of the error is arbitrary", "anchors": ["segeval/similarity/boundary.py:12-36", "segeval/similarity/segmentation.py:12-37", "segeval/similarity/weight.py:9-47", "segeval/similarity/__init__.py:25-80", "segeval/similarity/distance/multipleboundary.py:76-161"]}
{"id": "C76", "title": "The values of pi, kappa and bias", "statement": "With n comparisons of two coders on an item, pi corrects the actual agreement A by p, the square of the mean portion of potential boundaries that a coder marks, and kappa by k, the mean over pairs of coders of the product of their portions pooled over items: pi = (A-p)/(1-p), kappa = (A-k)/(1-k), bias = p-k, and return_parts gives (A,p), (A,k), (p,k). Both p and k are in [0,1). For two coders, one item and one boundary type they are ((K1+K2)/2N)^2 and (K1/N)(K2/N). Unless all coders agree on everything, kappa is at least pi exactly when bias is not negative; for one item it always is, for several items it need not be.", "quantifier": "all multiply coded datasets with every coder on every item and some gap not marked by all, B or S as comparison, in exact arithmetic, every iteration order of sets and dicts", "why_tests_cant": "any number of coders, items and boundary types", "anchors": ["segeval/agreement/pi.py:11-46", "segeval/agreement/kappa.py:11-55", "segeval/agreement/bias.py:12-28", "segeval/agreement/__init__.py:33-123"]}
{"id": "C77", "title": "Repeating all items does not change agreement", "statement": "If a dataset contains every item of another one k times, under any names and in any order, then actual agreement, pi, kappa, bias and their parts are the same for both, in exact arithmetic. Repeating only some of the items can change them.", "quantifier": "all datasets, every k > 0, B or S as comparison", "why_tests_cant": "any dataset and any number of repetitions", "anchors": ["segeval/agreement/__init__.py:59-123", "segeval/agreement/pi.py:11-46", "segeval/agreement/kappa.py:11-55", "segeval/agreement/bias.py:12-28"]}
{"id": "C78", "title": "The value of segmentation similarity", "statement": "S is 1 minus the cost of the edits (1 per addition or deletion, d/(range of types) per substitution over a distance d, (distance)/n_t per transposition) divided by the number of gaps times the square of the number of boundary types that occur: the code multiplies by the number of types twice. With decimals rounded to 28 digits the result differs from that by at most 10^-26.", "quantifier": "all pairs of segmentations in every format, every n_t other than 0, every iteration order of sets, boundary types within -5..256", "why_tests_cant": "any length, any number of boundary types and any edits", "anchors": ["segeval/similarity/segmentation.py:12-37", "segeval/similarity/__init__.py:25-80", "segeval/similarity/weight.py:24-47"]}
{"id": "C79", "title": "How far rounding moves the agreement coefficients", "statement": "With N comparisons of two coders on an item and decimals rounded to 28 digits, actual agreement is within N+6 half units of the 28th digit of its exact value, the chance agreements of pi and kappa are within 4N+6 and N+4, bias within 5N+11, and pi and kappa within 18N+44 and 6N+36 divided by the square of 1 - chance agreement. If some gap is not marked by all coders and the dataset is of practical size, then 1 - chance agreement is large enough for this, so pi, kappa and bias return.", "quantifier": "all multiply coded datasets with every coder on every item, B or S as comparison, every iteration order, every rounding that is monotone and correct to 28 digits", "why_tests_cant": "any number of coders and items; the rounding errors of any sequence of operations", "anchors": ["segeval/agreement/__init__.py:33-123", "segeval/agreement/pi.py:11-46", "segeval/agreement/kappa.py:11-55", "segeval/agreement/bias.py:12-28"]}
{"id": "C80", "title": "Writing a file", "statement": "output_linear_mass_json writes to the file at the path, or to output.json in the folder at the path; it succeeds iff that file exists or its folder does and no folder has its name; no other file or folder changes, and if the file cannot be opened nothing changes. The file is then read back as the same codings. If json.dump fails midway the file holds the part written so far, which the loader never reads as data; the old content is lost.", "quantifier": "all trees of files and folders, all paths, all texts and datasets of masses, all places of failure", "why_tests_cant": "all trees and all paths with dots, double slashes and missing parts; all places of failure", "anchors": ["segeval/data/jsonutils.py:23-48"]}
{"id": "C81", "title": "Loading a folder of files", "statement": "load_nested_folders_dict on a path of a folder loads exactly the codings in the files below it that have an accepted extension (of files with the same base in one folder, the last listed): for JSON those of the documents, for TSV those of the last row of each coder, under the item named like the file; items are prefixed with the folders in between. It succeeds iff each of these files is acceptable and no two code one item by one coder. A path that is no folder raises OSError. A dataset written to a folder without other documents is loaded from that folder with the same items, codings and coders.", "quantifier": "all trees of files and folders with any content, all paths, both file types", "why_tests_cant": "all trees, contents and paths", "anchors": ["segeval/data/__init__.py:112-190", "segeval/data/jsonutils.py:23-92", "segeval/data/tsv.py:14-52"]}
{"id": "C82", "title": "Refinements and extreme segmentations", "statement": "If the second segmentation has all the boundaries of the first, every edit is the addition of one that only the second has; B is the quotient of the numbers of boundaries, so it is multiplied along a chain of refinements, and S is 1 minus their difference over gaps times types squared; recall of a type is 1. The errors of Pk are the windows without a boundary in the first less those without one in the second, so they add up along a chain; those of WindowDiff are the windows in which the second has a boundary more, and grow along a chain. Against no boundary at all B is 0; against all possible ones B and S are the share of the gaps that are boundaries, and S against none is 1 minus that. The errors of Pk for the two extremes add up to all windows; WindowDiff equals Pk for no boundaries, and for all boundaries counts the windows that are not full.", "quantifier": "all pairs and chains of nested segmentations with any boundary types, all encodings, n_t and windows", "why_tests_cant": "all segmentations, windows and types", "anchors": ["segeval/similarity/distance/multipleboundary.py:76-161", "segeval/similarity/boundary.py:16-75", "segeval/similarity/segmentation.py:16-60", "segeval/window/pk.py:14-84", "segeval/window/windowdiff.py:23-133"]}
{"id": "C83", "title": "Keyword arguments of the public functions", "statement": "Every keyword a function takes sets just what it names, an absent one has the default of that function, and the call is then that of C45; the confusion matrix ignores one_minus and return_parts, the statistics refuse them, and B and S ignore boundary_types. Segmentations given by name (hypothesis and reference, or dataset) act as by position. Any keyword a function does not take raises TypeError when two non-empty segmentations are compared, and for a dataset exactly when there is something to compare (otherwise the result is empty, so a misspelt keyword need not raise). The keyword dataset_b acts as a second dataset read in the format of the first, so datasets of different formats are compared after all. A false Lamprier flag other than the object False never yields a value. The window size takes the keywords of Pk and ignores all but the format and the rounding. The agreement functions take those of B and fnc_compare, which must be B or S: with another keyword or comparison no coefficient is ever computed.", "quantifier": "all functions, arguments, keyword dicts and datasets", "why_tests_cant": "all combinations of keywords, values and datasets", "anchors": ["segeval/util/__init__.py:12-83", "segeval/compute.py:13-111", "segeval/window/__init__.py:12-67", "segeval/similarity/__init__.py:18-40", "segeval/agreement/__init__.py:20-180"]}
{"id": "C84", "title": "Agreed boundaries", "statement": "The edits between two boundary strings depend on their differences alone: two pairs with the same one-sided boundaries at every gap have the same edits, whatever they agree on. So has S, with any weights, if the same types are used, and so has WindowDiff for a given window size. B does depend on the number of agreed boundaries: it grows with it, strictly unless it is 1. Adding agreed boundaries never adds an error to Pk, and may remove some.", "quantifier": "all pairs of segmentations with the same differences, all encodings, weights, arithmetic, n_t and window sizes", "why_tests_cant": "all ways to agree on boundaries", "anchors": ["segeval/similarity/distance/multipleboundary.py:76-161", "segeval/similarity/boundary.py:16-75", "segeval/similarity/segmentation.py:16-60", "segeval/window/pk.py:14-84", "segeval/window/windowdiff.py:23-133"]}
{"id": "C85", "title": "Longer transpositions", "statement": "With one boundary type, a larger n_t never lowers B or S (default weights, exact arithmetic). With several types it can: a transposition may take the place of a cheaper substitution (refuted by a computed case).", "quantifier": "all pairs of segmentations using one boundary type, all n_t >= 1", "why_tests_cant": "all segmentations and pairs of n_t", "anchors": ["segeval/similarity/distance/multipleboundary.py:30-161", "segeval/similarity/weight.py:11-46", "segeval/similarity/boundary.py:16-75", "segeval/similarity/segmentation.py:16-60"]}
{"id": "C86", "title": "Metrics of shared matrix objects, also when they raise", "statement": "Precision, recall and F-measure of a matrix object give, or raise, what they do on its value. A query disturbs nobody: other matrices, rows and class sets that callers keep are as before, and even a query that raises has only looked at cells and classes of its matrix, so that every cell has its value. After any number of queries, with exceptions caught, the micro averages are what they were. In a dict of different matrices every label gets the value of its matrix; for micro-averaged precision and recall labels may share one. For macro averages they may not: one call can give the same object two values (refuted by a computed case).", "quantifier": "all programs on matrices, all heaps they reach, all queries, averages and arithmetic", "why_tests_cant": "all histories, aliasing and exceptions", "anchors": ["segeval/ml/__init__.py:18-187", "segeval/ml/__init__.py:190-252"]}
{"id": "C87", "title": "Results after saving and reloading", "statement": "A dataset of masses that was written as JSON and read again has the same codings, with items and coders in another order. Comparing all pairs in both orders, or two datasets with each other, then gives the same results for any metric. Comparing pairs in one order gives, for B and S (weights by counts and distances) and for Pk and WindowDiff with a given window size, the same values under the names of the pairs in one of their orders; the mean and variance of a summary and all agreement coefficients (items as a dict, exact arithmetic) are the same. Names of pairs can change, and so can Pk and its mean if Pk chooses the window itself (refuted by computed cases).", "quantifier": "all datasets of masses, all metrics, iteration orders of sets, conversions of masses", "why_tests_cant": "all datasets and orders", "anchors": ["segeval/data/jsonutils.py:23-92", "segeval/compute.py:11-111", "segeval/agreement/__init__.py:60-184"]}
{"id": "C88", "title": "Texts of two parts", "statement": "If two codings agree on a stretch of at least n_t - 1 positions, the edits of the whole are the edits of what comes before it and those of what comes after it. 1 - B of the whole is the average of 1 - B of the parts, weighted by their edits and matches, with agreed boundaries of the stretch counting as perfect; so B is not below the smaller B of a part, and not above the greater one if the stretch has no boundaries. 1 - S is the average by length, if the same types are used. Without the stretch both claims are false (refuted by computed cases).", "quantifier": "all codings, stretches, n_t, iteration orders of sets", "why_tests_cant": "all pairs of codings and all ways to cut them", "anchors": ["segeval/similarity/distance/multipleboundary.py:41-226", "segeval/similarity/boundary.py", "segeval/similarity/segmentation.py"]}
{"id": "C89", "title": "Correcting a stretch", "statement": "If a coder's stretch of text is replaced by the reference's, where the codings agree on at least n_t - 1 positions on both sides of it and the greatest and least type remain the same, B does not fall; it rises if anything changed, unless it is 0 afterwards. S rises if anything changed, if the same types remain in use. Next to a near miss this is false: B can fall when a boundary is placed correctly (refuted by a computed case).", "quantifier": "all codings, stretches, n_t, iteration orders of sets", "why_tests_cant": "all pairs of codings and all stretches", "anchors": ["segeval/similarity/distance/multipleboundary.py:41-226", "segeval/similarity/boundary.py", "segeval/similarity/segmentation.py"]}
{"id": "C90", "title": "Texts put one after the other", "statement": "If two segmented texts are put one after the other, the errors that Pk counts for a given window size are the sum of the errors of both texts; WindowDiff counts at least the sum and at most k windows more (attained). For n_t up to 2, B and S of the whole follow from the edits of the two texts, the border being one more match. For n_t = 3 this is false of B (refuted by a computed case).", "quantifier": "all segmentations of two texts, all encodings, window sizes shorter than both texts", "why_tests_cant": "all pairs of texts and window sizes", "anchors": ["segeval/window/pk.py:19-62", "segeval/window/windowdiff.py:43-139", "segeval/similarity/boundary.py", "segeval/similarity/segmentation.py"]}
{"id": "C91", "title": "Adding datasets and evaluating the sum", "statement": "a+b exists exactly when no item has a coding by the same coder in both (otherwise DataIOError), and has the codings, items and coders of both with the properties, types and format of a. Adding datasets is associative: (a+b)+c and a+(b+c) are the same dataset with the same order of items and coders, or both raise. With both orders of coders, a+b and b+a have the same pairwise values. If no item is in both, pairwise values of the sum are those of a and of b, and exist exactly if both exist; with the same coders and format the exact actual agreement of the sum is a strict weighted mean of those of a and b. Not true (refuted by computed cases): that addition is commutative, that the format of b is respected, and that pi and kappa of the sum lie between those of a and b.", "quantifier": "all datasets, metrics, orders of iteration", "why_tests_cant": "all datasets and metrics; the tests add two fixed datasets", "anchors": ["segeval/data/__init__.py:59-100", "segeval/compute.py", "segeval/agreement/__init__.py"]}
{"id": "C92", "title": "Confusion matrices of texts made of parts", "statement": "If two codings agree on a stretch of at least n_t - 1 positions, the errors in the confusion matrix of the whole are the sums of those of what is before and what is behind it, and the correct boundaries of a type are those of the parts plus those in the stretch. Precision and recall of a type, and the micro-average, are weighted means of those of the parts, agreed boundaries counting as a part with value 1; so these and F are at least the smaller of the parts' values, and at most the larger one if no boundary is in the stretch. Not true (refuted) of the macro-average.", "quantifier": "all codings of any length and types, all formats, class orders, beta", "why_tests_cant": "relates matrices of infinitely many triples of texts", "anchors": ["segeval/ml/__init__.py", "segeval/similarity/__init__.py:83-123", "segeval/similarity/distance/multipleboundary.py:41-143"]}
{"id": "C93", "title": "The default window under Python 2 and Python 3", "statement": "setup.py names Python 2 and 3, whose built-in round (the default fnc_round) differ. Under Python 2 the default window size is half the mean mass with a half rounded up, at least 2. Python 3 gives the same size or one less, and one less exactly if the mean mass is 4j+1 with j >= 1; for any other reference Pk and WindowDiff have the same values under both versions. That the values never depend on the version is false (refuted).", "quantifier": "all nested dicts of positive masses with sum up to 10^13, all encodings, all parameters", "why_tests_cant": "a test runs under one Python version and on finitely many masses; decimal and double roundings have to be excluded for all means", "anchors": ["segeval/window/__init__.py:14-19", "segeval/window/__init__.py:52-57", "setup.py:50-53"]}
{"id": "C94", "title": "Reading an absent item of a dataset", "statement": "A Dataset is a defaultdict(dict): dataset[x] for an absent x stores an item without codings and changes nothing else. Pairwise values of metrics, the calls made for them and their exceptions stay as they are up to the order in which items are walked, for one and two datasets; only an empty dataset, refused before, then gives an empty result. With two coders no agreement is returned any more: actual agreement raises KeyError (or what it raised before), kappa, pi and bias an Exception. Adding datasets passes the empty item on. That reading is harmless for agreement is false (refuted).", "quantifier": "all datasets, item names, metrics, set orders, arithmetic contexts, parameters", "why_tests_cant": "a claim about all datasets and all metrics after a read that looks side-effect free", "anchors": ["segeval/data/__init__.py:27-57", "segeval/compute.py:34-98", "segeval/agreement/__init__.py:150-171", "segeval/agreement/pi.py:22-24", "segeval/agreement/kappa.py:22-28"]}
{"id": "C95", "title": "Layout of written JSON files", "statement": "In the text written for any JSON value every line is indented by four spaces per open bracket (a closing bracket at its front not counted), lines end behind every comma and behind every bracket that is not closed at once, one space follows a colon, brackets and strings are closed at the end, and the value read back has the keys of every object in increasing order. Brackets, commas and colons within strings do not count.", "quantifier": "all JSON values with characters up to U+00FF and any right float representation", "why_tests_cant": "all nestings and all string contents", "anchors": ["segeval/data/jsonutils.py:23-34", "segeval/data/jsonutils.py:37-52"]}
{"id": "C96", "title": "Agreement needs a complete dataset", "statement": "With two or more coders, actual agreement, pi, kappa and bias return a value only if every coder has a well-formed coding of every item. If one is missing and all present codings of one item can be compared, actual agreement raises KeyError, and so do pi, kappa and bias when all items have the same number of codings (their only check). Hence a sum of datasets where one item lacks one of the coders has no agreement.", "quantifier": "all datasets and dicts, comparisons, arithmetics, formats and orders of the coders", "why_tests_cant": "all ways in which codings can be missing; the tests only use complete datasets", "anchors": ["segeval/agreement/__init__.py:147-171", "segeval/agreement/pi.py:22-25", "segeval/agreement/kappa.py:22-28", "segeval/data/__init__.py:82-100"]}
{"id": "C97", "title": "Actual agreement lies among the pairwise values", "statement": "On a fully coded dataset the actual agreement lies between the smallest and the greatest of the values of boundary similarity (or segmentation similarity) for an item and two coders, as compute_pairwise_values returns them; if these are all equal it is their common value. It need not be their mean.", "quantifier": "all fully coded datasets without commas in the coders' names, all orders of sets, all n_t but 0, exact arithmetic", "why_tests_cant": "relates two modules on all datasets", "anchors": ["segeval/agreement/__init__.py:147-175", "segeval/compute.py:11-100", "segeval/similarity/boundary.py:12-36", "segeval/similarity/segmentation.py:12-37"]}
{"id": "C98", "title": "Summaries with permuted pairs", "statement": "If the metric is symmetric on the pairs of a dataset (as B and S are), permuted=True makes compute_pairwise_values return every value twice as often. So summarize gives the same mean, variance and standard deviation and twice the number, but a standard error divided by the root of 2.", "quantifier": "all datasets without commas in the coders' names, all symmetric metrics, all orders of sets; the summary in exact arithmetic but for the 28-digit roots", "why_tests_cant": "all datasets and metrics; no test summarises permuted values", "anchors": ["segeval/compute.py:34-111", "segeval/util/math.py:12-70"]}
{"id": "C99", "title": "Actual agreement as a mean", "statement": "If every item has exactly the dataset's coders, the exact actual agreement by B is a mean of the values compute_pairwise_values returns, with one positive weight for each value. By S it is their plain mean, as computed by summarize, if all texts have the same number of gaps and all pairs of codings use the same types.", "quantifier": "all datasets fully coded with cached types, all orders of sets; exact arithmetic", "why_tests_cant": "all datasets; the tests compute agreement and pairwise means separately", "anchors": ["segeval/agreement/__init__.py:147-175", "segeval/similarity/segmentation.py:12-37", "segeval/compute.py:11-111"]}
{"id": "C100", "title": "Agreement of some of the coders", "statement": "In exact arithmetic the actual agreement of all coders lies between that of some two of them and that of some other two, computed on the dataset with the other codings removed. With three or more coders there is one whose removal does not raise it and one whose removal does not lower it. For kappa this is false: it can exceed the kappa of every two coders (refuted by a computed case).", "quantifier": "all datasets fully coded with cached types, B and S, all orders of sets", "why_tests_cant": "all datasets; the tests never compare a dataset with parts of it", "anchors": ["segeval/agreement/__init__.py:23-175"]}
{"id": "C101", "title": "Agreement by S is at least agreement by B", "statement": "In exact arithmetic and with the default weights, actual agreement, pi and kappa computed with segmentation similarity are at least those computed with boundary similarity on the same dataset. The two do not order datasets alike (refuted by a computed case).", "quantifier": "all datasets coded with cached types (pi and kappa: fully coded, some gap not marked alike by all), all n_t except 0, all orders of sets", "why_tests_cant": "all datasets; the tests compare each coefficient with a constant and never one with another", "anchors": ["segeval/agreement/__init__.py:23-175", "segeval/agreement/pi.py:11-56", "segeval/agreement/kappa.py:11-65", "segeval/similarity/boundary.py:12-45", "segeval/similarity/segmentation.py:12-37"]}
{"id": "C102", "title": "Agreement on two parts of a dataset", "statement": "In exact arithmetic the actual agreement on the items of two datasets with the same coders together is a mean, with positive weights, of the agreements on either. Adding items on which all coders agree does not lower it, and raises it unless the coders agree on all items. Pi can fall (refuted by a computed case).", "quantifier": "all pairs of non-empty item dictionaries coded by the same coders with cached types, B and S, all n_t except 0, all orders of sets", "why_tests_cant": "all datasets and all ways to split them; the tests evaluate each dataset once", "anchors": ["segeval/agreement/__init__.py:23-30", "segeval/agreement/__init__.py:80-175"]}
{"id": "C103", "title": "Pi and kappa never exceed actual agreement", "statement": "In exact arithmetic pi and kappa are at most the actual agreement. Pi equals it exactly when all coders agree on all items. Kappa equals it exactly when they do or when of any two coders one never places a boundary.", "quantifier": "all fully coded datasets in which some gap is not marked alike by all coders, B and S (S with cached types), all n_t except 0, all orders of sets", "why_tests_cant": "all datasets; an equivalence about equality of two coefficients", "anchors": ["segeval/agreement/pi.py:11-56", "segeval/agreement/kappa.py:11-65", "segeval/agreement/__init__.py:80-175"]}
{"id": "C104", "title": "Two metrics over the same datasets", "statement": "If the results of two metrics are related on all pairs of codings that are compared, compute_pairwise_values gives both the same keys in the same order, with related results. So over whole datasets Pk never exceeds WindowDiff and B never exceeds S, key by key, and neither do their means as summarize computes them without rounding.", "quantifier": "all metrics and relations; all datasets, one or two, permuted or not, all orders of the items", "why_tests_cant": "all metrics and all datasets; the tests evaluate single metrics on fixed data", "anchors": ["segeval/compute.py:11-111", "segeval/util/math.py"]}
{"id": "C105", "title": "Annotator bias is bounded by the number of coders", "statement": "For one item with one boundary type, in exact arithmetic, the bias of k coders is the sum, over all pairs of coders, of the squared difference of the portions of the gaps they mark, divided by k*k*(k-1). It is at most 1/(4(k-1)), which two coders reach when one marks every gap and the other none.", "quantifier": "all numbers of coders, all codings of one item with one boundary type, all formats, all iteration orders", "why_tests_cant": "the tests fix the datasets; the bound concerns all of them", "anchors": ["segeval/agreement/bias.py", "segeval/agreement/pi.py", "segeval/agreement/kappa.py"]}
{"id": "C106", "title": "Summaries of a metric and of its complement", "statement": "Over whole datasets, with one_minus Pk, WindowDiff, B and S give under the same keys 1 minus the value they give without it. In exact arithmetic the mean that summarize computes becomes 1 minus the mean, while standard deviation, variance, standard error and count stay the same.", "quantifier": "all datasets, one or two, permuted or not, all orders of the items; for Pk and WindowDiff all codings and window sizes", "why_tests_cant": "all datasets; the tests evaluate fixed data", "anchors": ["segeval/compute.py:11-111", "segeval/util/math.py", "segeval/window/pk.py", "segeval/window/windowdiff.py", "segeval/similarity/boundary.py", "segeval/similarity/segmentation.py"]}
{"id": "C107", "title": "Summaries of two datasets put together", "statement": "For a dataset made of two without common items, the pairwise values are exactly those of the two parts. In exact arithmetic the mean summarize computes is the mean of the parts' means weighted by their numbers of values, and the variance is the weighted mean of the parts' variances plus the variance between the parts.", "quantifier": "all metrics, all datasets whose items differ, all orders of the items", "why_tests_cant": "all metrics and datasets; the tests summarize fixed data", "anchors": ["segeval/compute.py:11-111", "segeval/util/math.py"]}
