{"id": "C01", "title": "dtrange yields exactly the values from start up to, but excluding, stop", "statement": "For date and datetime arguments with a step pointing from start towards stop, dtrange(start, stop, step, unit) is the sequence start, start+step, start+2*step, ... and contains exactly those terms that lie strictly before stop (strictly after stop for a negative step): nothing is missing, nothing at or past stop is included, and the order is increasing (decreasing).", "quantifier": "every pair of dates or datetimes, every non-zero whole step and unit in that direction", "why_tests_cant": "start/stop/step combinations are unbounded and the last element depends on divisibility, which examples only sample", "anchors": ["src/fauxdoc/dtrange.py:dtrange", "src/fauxdoc/dtrange.py:_value_to_index", "src/fauxdoc/dtrange.py:DateOrTimeRange"]}
{"id": "C02", "title": "A dtrange whose stop is on the wrong side of start is an empty sequence", "statement": "Like range(5, 1), dtrange with a stop that cannot be reached in the direction of step is an empty sequence: len() is 0 and list() is [].", "quantifier": "every pair of dates/datetimes/times and every non-zero step pointing away from stop", "why_tests_cant": "whether it fails depends on the distance between stop and start relative to the step, over an unbounded domain", "anchors": ["src/fauxdoc/dtrange.py:dtrange", "src/fauxdoc/dtrange.py:DateOrTimeRange.__len__"]}
{"id": "C03", "title": "Indexing a date/time range follows Python sequence rules", "statement": "r[i] is start + i*step for 0 <= i < len(r), r[-k] is r[len(r)-k], and r[i] raises IndexError exactly when i is outside [-len(r), len(r)); an in-range index never yields a value of another type than start.", "quantifier": "every range object, every integer index", "why_tests_cant": "unbounded lengths and indices, negative indices, negative steps, overflow of the calendar", "anchors": ["src/fauxdoc/dtrange.py:DateOrTimeRange.__getitem__", "src/fauxdoc/dtrange.py:_index_to_value"]}
{"id": "C04", "title": "index, membership and count agree with the elements of a date/datetime range", "statement": "For ranges of dates or datetimes: r.index(r[i]) == i; if r.index(v) returns i then r[i] == v; v in r holds iff v is one of the elements; r.count(v) is the number of occurrences of v in list(r).", "quantifier": "every date/datetime range with non-zero step, every value of the same type", "why_tests_cant": "membership is computed by division, not by search; agreement with the elements must hold for all values including those between elements or outside", "anchors": ["src/fauxdoc/dtrange.py:DateOrTimeRange.index", "src/fauxdoc/dtrange.py:DateOrTimeRange.__contains__", "src/fauxdoc/dtrange.py:DateOrTimeRange.count", "src/fauxdoc/dtrange.py:_value_to_index"]}
{"id": "C05", "title": "Slicing a date/datetime range agrees with slicing the list of its elements", "statement": "list(r[a:b:c]) == list(r)[a:b:c] for every slice, including omitted, negative and out-of-range bounds and negative steps; a slice of a slice behaves likewise.", "quantifier": "every date/datetime range, every slice with non-zero step", "why_tests_cant": "slice bounds and steps are unbounded and interact with length and sign", "anchors": ["src/fauxdoc/dtrange.py:DateOrTimeRange.__getitem__"]}
{"id": "C06", "title": "Equality and hash of ranges match equality of their element sequences", "statement": "Two ranges of the same kind compare equal iff they contain the same elements in the same order, and equal ranges have equal hashes.", "quantifier": "every pair of ranges", "why_tests_cant": "quantifies over all pairs; step is ignored for short ranges, and time steps are modular", "anchors": ["src/fauxdoc/dtrange.py:DateOrTimeRange.__eq__", "src/fauxdoc/dtrange.py:DateOrTimeRange.__hash__"]}
{"id": "C07", "title": "Time ranges wrap around midnight", "statement": "For time arguments dtrange(start, stop, step) yields exactly the times start, start+step, ... (modulo 24h, going forwards for a positive and backwards for a negative step) that come before stop is reached for the first time; all elements are distinct; index and membership invert indexing.", "quantifier": "every pair of distinct times, every non-zero step shorter than a day", "why_tests_cant": "wrap-around depends on the relation of start, stop and the sign of the step", "anchors": ["src/fauxdoc/dtrange.py:_value_to_index", "src/fauxdoc/dtrange.py:_index_to_value", "src/fauxdoc/dtrange.py:dtrange"]}
{"id": "C08", "title": "A time range with start == stop is the full clock", "statement": "dtrange(t, t, step) covers the whole 24 hours starting at t: ceil(24h/step) distinct times, the last one less than a step before t comes round again, for steps in either direction.", "quantifier": "every time t, every non-zero step shorter than a day", "why_tests_cant": "any t, any step size and direction", "anchors": ["src/fauxdoc/dtrange.py:dtrange"]}
{"id": "C09", "title": "Slicing a time range agrees with slicing the list of its elements", "statement": "For time ranges produced by dtrange, list(r[a:b:c]) == list(r)[a:b:c] for every slice.", "quantifier": "every time range from dtrange, every slice", "why_tests_cant": "slice step multiplies the range step and can cross the 24h validity limit", "anchors": ["src/fauxdoc/dtrange.py:DateOrTimeRange.__getitem__", "src/fauxdoc/dtrange.py:DateOrTimeRange.step"]}
{"id": "C10", "title": "Every element of a time range is a member of it", "statement": "For any constructible time range, r[i] in r holds and r.index(r[i]) identifies a position holding that value.", "quantifier": "every DateOrTimeRange of times, every index", "why_tests_cant": "ranges built directly may span several days; index only searches one lap", "anchors": ["src/fauxdoc/dtrange.py:DateOrTimeRange.index", "src/fauxdoc/dtrange.py:_value_to_index"]}
{"id": "C11", "title": "A range object never holds a step its element type cannot represent", "statement": "Constructing a date range succeeds only with a step of whole days, and a time range only with a step shorter than a day in absolute value; every whole-day step is accepted for dates; datetime ranges accept any step.", "quantifier": "every timedelta, including huge ones where float rounding matters", "why_tests_cant": "the check goes through float total_seconds(); correctness depends on rounding over the full timedelta range", "anchors": ["src/fauxdoc/dtrange.py:DateOrTimeRange.step"]}
{"id": "C12", "title": "Membership tests never raise", "statement": "v in r returns True or False for every object v: foreign types are simply not members.", "quantifier": "every range and every object, including datetime objects tested against date ranges", "why_tests_cant": "needs all type combinations; datetime is a subclass of date", "anchors": ["src/fauxdoc/dtrange.py:DateOrTimeRange.__contains__", "src/fauxdoc/dtrange.py:DateOrTimeRange.index"]}
{"id": "C13", "title": "dtrange rejects inconsistent arguments", "statement": "dtrange raises ValueError when either argument is not a date/time nor an ISO string, when start and stop resolve to different types, and when step_unit is not a timedelta unit; and never returns a range of another type than start.", "quantifier": "every combination of argument kinds, strings and unit names", "why_tests_cant": "all strings / all combinations", "anchors": ["src/fauxdoc/dtrange.py:dtrange", "src/fauxdoc/dtrange.py:_parse_user_date"]}
{"id": "C14", "title": "clamp keeps a number inside its limits", "statement": "clamp(x, mn, mx) returns x if it is inside the limits and otherwise the violated limit; for mn <= mx the result is always inside [mn, mx]; clamp is idempotent and monotone; omitted limits do not restrict.", "quantifier": "every number and optional limits", "why_tests_cant": "all numbers", "anchors": ["src/fauxdoc/mathtools.py:clamp"]}
{"id": "C15", "title": "weighted_shuffle selects items without replacement", "statement": "weighted_shuffle(items, weights, rng, number) that returns, returns min(number, len(items)) items taken from pairwise different positions of items; with number omitted it is a permutation of items; mismatched lengths raise ValueError.", "quantifier": "every item list (including duplicates), every weights, every RNG behaviour, every number >= 0", "why_tests_cant": "depends on every possible sequence of random draws and on the algorithm switch at 42%", "anchors": ["src/fauxdoc/mathtools.py:weighted_shuffle"]}
{"id": "C16", "title": "weighted_shuffle terminates", "statement": "For positive weights and 0 <= number <= len(items) weighted_shuffle always returns: the rejection loop needs at most `number` rounds whatever the RNG does.", "quantifier": "every RNG behaviour, every weights", "why_tests_cant": "termination for all RNG behaviours", "anchors": ["src/fauxdoc/mathtools.py:weighted_shuffle"]}
{"id": "C17", "title": "weighted_shuffle orders by weight-scaled score and never selects a zero-weight item", "statement": "With few items requested only items of positive weight are returned; with many requested the result lists items by decreasing score log(u_i)/w_i, ties in input order. Zero weights in the many-items case raise ZeroDivisionError instead of being skipped.", "quantifier": "every weights and draws", "why_tests_cant": "all draws, both algorithm branches", "anchors": ["src/fauxdoc/mathtools.py:weighted_shuffle"]}
{"id": "C18", "title": "Weighted choice picks item i exactly on an interval of length weight_i/total", "statement": "With replacement and weights (or equivalent cum_weights), one draw u in [0,1) selects item i iff cum[i-1]/total <= u < cum[i]/total: item i gets a share weights[i]/total of the unit interval, zero-weight items are never chosen and exactly one item is chosen.", "quantifier": "every non-negative weights with positive sum, every draw u", "why_tests_cant": "statistical tests only approximate; the exact partition must hold for every u", "anchors": ["src/fauxdoc/emitters/choice.py:Choice._choice_with_replacement", "src/fauxdoc/emitters/choice.py:Choice._set_all_weights"]}
{"id": "C19", "title": "poisson is the Poisson probability mass function", "statement": "poisson(x, mu) for mu > 0 is positive, satisfies p(0)=e^-mu and p(x+1) = p(x)*mu/(x+1), hence increases up to x = mu and decreases after it; partial sums never exceed 1 and tend to 1.", "quantifier": "every x >= 0, every mu > 0 (exact real arithmetic)", "why_tests_cant": "all x and mu; sums are infinite", "anchors": ["src/fauxdoc/mathtools.py:poisson"]}
{"id": "C20", "title": "gaussian is the normal density", "statement": "gaussian(x, mu, sigma) for sigma > 0 is positive, symmetric about mu, maximal at mu with value 1/(sigma*sqrt(2*pi)), strictly decreasing away from mu, and invariant under shifting x and mu together.", "quantifier": "every x, mu and sigma > 0 (exact real arithmetic)", "why_tests_cant": "all reals", "anchors": ["src/fauxdoc/mathtools.py:gaussian"]}
{"id": "C21", "title": "poisson_choice works for any number of items", "statement": "poisson_choice(items) can be constructed for every non-empty list of items (weight_floor is documented as useful for a large number of items).", "quantifier": "every number of items", "why_tests_cant": "fails only from a certain size on", "anchors": ["src/fauxdoc/emitters/choice.py:poisson_choice", "src/fauxdoc/mathtools.py:poisson"]}
{"id": "C22", "title": "A Choice emitter only ever emits its own items", "statement": "Every value emitted by a Choice in any reachable state is an element of items.", "quantifier": "every history of calls and attribute changes, every RNG behaviour", "why_tests_cant": "all histories and RNG behaviours", "anchors": ["src/fauxdoc/emitters/choice.py:Choice.emit", "src/fauxdoc/emitters/choice.py:Choice.emit_many"]}
{"id": "C23", "title": "Choice without replacement emits each item exactly once until reset", "statement": "With replace=False, the concatenation of everything emitted since the last (re)shuffle, over any mix of single and batched calls, uses every position of items at most once; after len(items) values it is a permutation of items; a request for more than what remains raises ValueError and changes nothing.", "quantifier": "every history of requests of any non-negative sizes, every RNG behaviour, duplicates in items", "why_tests_cant": "all call histories", "anchors": ["src/fauxdoc/emitters/choice.py:Choice._choice_without_replacement", "src/fauxdoc/emitters/choice.py:Choice._global_shuffle"]}
{"id": "C24", "title": "replace_only_after_call makes each call unique and forgets between calls", "statement": "With replace_only_after_call=True, a call for n >= 2 values returns values from n different positions of items, raises ValueError iff n > len(items), and leaves the set of available items unchanged, so the next call can emit any item again.", "quantifier": "every n, every RNG behaviour, every history", "why_tests_cant": "all histories", "anchors": ["src/fauxdoc/emitters/choice.py:Choice.emit_many", "src/fauxdoc/emitters/choice.py:Choice._choice_without_replacement"]}
{"id": "C25", "title": "Uniqueness bookkeeping is exact", "statement": "At all times num_unique_items is the number of items that can still be emitted (items not yet emitted when replace is False, len(items) otherwise); num_unique_values is the number of distinct values among them; emits_unique_values is True iff replace is False and the remaining items are pairwise distinct, in which case no value is ever repeated before a reset.", "quantifier": "every history", "why_tests_cant": "all histories", "anchors": ["src/fauxdoc/emitters/choice.py:Choice.num_unique_items", "src/fauxdoc/emitters/choice.py:Choice.num_unique_values", "src/fauxdoc/emitters/choice.py:Choice.emits_unique_values"]}
{"id": "C26", "title": "weights and cum_weights stay consistent", "statement": "In every reachable state weights and cum_weights are both None or both have len(items) entries with cum_weights the running sums of weights; setting either updates both; a wrongly sized assignment raises ValueError and changes nothing.", "quantifier": "every history of assignments", "why_tests_cant": "all histories", "anchors": ["src/fauxdoc/emitters/choice.py:Choice._set_all_weights", "src/fauxdoc/emitters/choice.py:Choice.weights", "src/fauxdoc/emitters/choice.py:Choice.cum_weights"]}
{"id": "C27", "title": "replace and replace_only_after_call never contradict each other", "statement": "In every reachable state replace_only_after_call implies replace; setting replace=False clears replace_only_after_call; setting replace_only_after_call=True sets replace; other settings are left alone.", "quantifier": "every history of assignments", "why_tests_cant": "all histories", "anchors": ["src/fauxdoc/emitters/choice.py:Choice.replace", "src/fauxdoc/emitters/choice.py:Choice.replace_only_after_call", "src/fauxdoc/emitters/choice.py:Choice.__init__"]}
{"id": "C28", "title": "Seeding a Choice is equivalent to constructing it with that seed", "statement": "After seed(s), and after reset() with rng_seed s, a Choice emits exactly the sequence that a new Choice with the same settings and rng_seed=s emits, whatever happened before.", "quantifier": "every history before seeding, every sequence of calls after it", "why_tests_cant": "all histories", "anchors": ["src/fauxdoc/emitters/choice.py:Choice.seed", "src/fauxdoc/emitters/choice.py:Choice.reset", "src/fauxdoc/mixins.py:RandomMixin"]}
{"id": "C29", "title": "How calls are batched does not change what is emitted", "statement": "For Sequential/Iterative/Static, for Choice without replacement and for weighted Choice with replacement, em(a) followed by em(b) emits the same values as em(a+b).", "quantifier": "every state, every a, b >= 0, every RNG behaviour", "why_tests_cant": "all splits", "anchors": ["src/fauxdoc/emitters/fixed.py:Sequential", "src/fauxdoc/emitters/fixed.py:Iterative", "src/fauxdoc/emitters/choice.py:Choice"]}
{"id": "C30", "title": "chance(p) is certain at the extremes", "statement": "chance(p) always emits False for p <= 0 and always True for p >= 1; in between it emits True exactly when the draw is below p.", "quantifier": "every p, every draw", "why_tests_cant": "all p, all draws; float rounding for large p", "anchors": ["src/fauxdoc/emitters/choice.py:chance"]}
{"id": "C31", "title": "poisson_choice and gaussian_choice respect weight_floor", "statement": "One weight per item is produced, every weight is at least weight_floor, and a weight equals the distribution value whenever that is at least the floor.", "quantifier": "every item list, mu, sigma, floor", "why_tests_cant": "all parameters", "anchors": ["src/fauxdoc/emitters/choice.py:poisson_choice", "src/fauxdoc/emitters/choice.py:gaussian_choice"]}
{"id": "C32", "title": "Sequential repeats its items forever", "statement": "The k-th value emitted since construction or reset is items[k mod len(items)], however calls are batched; with reset_after_call every call starts from items[0].", "quantifier": "every non-empty items, every history of calls", "why_tests_cant": "unbounded histories", "anchors": ["src/fauxdoc/emitters/fixed.py:Sequential"]}
{"id": "C33", "title": "Iterative emits the successive iterators of its factory back to back", "statement": "An Iterative emits the elements of the iterator from factory(), then of the next one, and so on, losing and duplicating nothing across calls; reset starts with a new iterator from the factory; an empty iterator is rejected at construction and when set.", "quantifier": "every factory (finite or infinite, also one returning different iterators each time), every history", "why_tests_cant": "infinite streams", "anchors": ["src/fauxdoc/emitters/fixed.py:Iterative"]}
{"id": "C34", "title": "Calling an emitter with a number returns a list of exactly that many values", "statement": "em(n) returns a list of length n for every n >= 0 and em() returns a single value, for every emitter composed of the library classes.", "quantifier": "every composition of emitters, every state, every n", "why_tests_cant": "all compositions", "anchors": ["src/fauxdoc/emitter.py:Emitter.__call__"]}
{"id": "C35", "title": "make_alphabet contains exactly the characters of the inclusive ranges", "statement": "make_alphabet(ranges) is the concatenation, in order, of the inclusive code point ranges; a character is in it iff its code point lies in one of the ranges; invalid code points raise ValueError.", "quantifier": "every list of ranges", "why_tests_cant": "all ranges", "anchors": ["src/fauxdoc/emitters/text.py:make_alphabet"]}
{"id": "C36", "title": "Word emits words of the requested lengths over the alphabet", "statement": "Word emits one word per requested value; the i-th word consists of exactly lengths[i] consecutive values of the alphabet emitter; concatenating the words gives back all the characters drawn, in order.", "quantifier": "every length/alphabet emitter behaviour, every n", "why_tests_cant": "all child emitter behaviours", "anchors": ["src/fauxdoc/emitters/text.py:Word.emit", "src/fauxdoc/emitters/text.py:Word.emit_many"]}
{"id": "C37", "title": "Text emits the drawn words in order, joined by separators", "statement": "Each text consists of its number of words in the order drawn, with exactly one separator between consecutive words and none at the ends; over a batch all drawn words are used, in order, exactly once.", "quantifier": "every child emitter behaviour, every n", "why_tests_cant": "all child behaviours", "anchors": ["src/fauxdoc/emitters/text.py:Text.emit_many"]}
{"id": "C38", "title": "Text(n) returns n texts", "statement": "Text called with n returns exactly n texts, and called without argument returns one text, for every numwords emitter of non-negative integers.", "quantifier": "every numwords behaviour including 0", "why_tests_cant": "value 0 only in rare draws", "anchors": ["src/fauxdoc/emitters/text.py:Text.emit", "src/fauxdoc/emitters/text.py:Text.emit_many"]}
{"id": "C39", "title": "num_unique_values of Word and Text is an upper bound", "statement": "A Word (Text) emitter whose length (numwords) emitter has items can never emit more different values than num_unique_values.", "quantifier": "every sequence of emissions", "why_tests_cant": "exhaustive enumeration is impossible for realistic alphabets", "anchors": ["src/fauxdoc/emitters/text.py:Word._update_num_unique_vals", "src/fauxdoc/emitters/text.py:Text._update_num_unique_vals"]}
{"id": "C40", "title": "WrapOne applies the wrapper to each source value", "statement": "WrapOne(source, f)() is f(source()) and WrapOne(source, f)(n) is [f(v) for v in source(n)], in order, with the emitter rng passed iff f has an rng parameter.", "quantifier": "every source emitter, wrapper function and n", "why_tests_cant": "all functions", "anchors": ["src/fauxdoc/emitters/wrappers.py:WrapOne"]}
{"id": "C41", "title": "WrapMany combines the i-th values of all sources", "statement": "WrapMany(sources, f)(n)[i] is f applied to the i-th value of each source under its label.", "quantifier": "every mapping of sources, every f and n", "why_tests_cant": "all functions", "anchors": ["src/fauxdoc/emitters/wrappers.py:WrapMany"]}
{"id": "C42", "title": "A wrapper accepted at assignment never fails with a signature error later", "statement": "If set_wrapper_function / construction succeeds, later emissions never raise TypeError because of the call signature.", "quantifier": "every signature (positional, keyword, defaults, variadic), every label set", "why_tests_cant": "all signatures and label sets", "anchors": ["src/fauxdoc/emitters/wrappers.py:BoundWrapper.try_mock_call", "src/fauxdoc/emitters/wrappers.py:BoundWrapper.__call__"]}
{"id": "C43", "title": "Creating a wrapper emitter does not consume source values", "statement": "After constructing WrapOne/WrapMany, the sources are in their reset state, so that the first emitted values are those of freshly reset sources.", "quantifier": "every source emitter tree and prior state", "why_tests_cant": "all prior states", "anchors": ["src/fauxdoc/emitters/wrappers.py:WrapOne.wrapper", "src/fauxdoc/emitters/wrappers.py:WrapMany.wrapper"]}
{"id": "C44", "title": "Creating a BasedOnFields emitter does not disturb its source fields", "statement": "Constructing BasedOnFields(source, action) leaves the source fields as they were: the values they output afterwards are the same as if it had not been constructed.", "quantifier": "every source field", "why_tests_cant": "depends on the state of the source emitter", "anchors": ["src/fauxdoc/emitters/fromfields.py:BasedOnFields.action"]}
{"id": "C45", "title": "Field.previous is always the last value the field returned", "statement": "previous is None after construction or reset and otherwise equals the result of the last successful call of the field; no call to anything else changes it.", "quantifier": "every history of operations on a schema with shared emitters", "why_tests_cant": "all histories", "anchors": ["src/fauxdoc/profile.py:Field.__call__", "src/fauxdoc/profile.py:Field.previous"]}
{"id": "C46", "title": "The gate decides whether a field emits, and a closed gate touches nothing else", "statement": "If gate_emitter yields a false value the field returns None and neither emitter nor repeat_emitter is called; otherwise it returns what emitter returns for the repeat count.", "quantifier": "every field state", "why_tests_cant": "all states", "anchors": ["src/fauxdoc/profile.py:Field.__call__"]}
{"id": "C47", "title": "Multi-valued fields emit lists of the repeat count, single-valued fields emit single values", "statement": "With a repeat emitter yielding n the field returns a list of exactly n values (0 => [], 1 => [v]); with Static(None) it returns one value; multi_valued says which.", "quantifier": "every emitter composition, every n", "why_tests_cant": "all compositions", "anchors": ["src/fauxdoc/profile.py:Field.__call__", "src/fauxdoc/profile.py:Field.multi_valued"]}
{"id": "C48", "title": "A schema call produces exactly the public fields, in order, calling every field once", "statement": "schema() returns a dict whose keys are the names of the non-hidden fields in schema order, each mapped to the value its field returned in this call; every field, hidden ones included, is called exactly once, in order.", "quantifier": "every schema, every state", "why_tests_cant": "all schemas", "anchors": ["src/fauxdoc/profile.py:Schema.__call__"]}
{"id": "C49", "title": "Adding fields preserves order and replaces by name", "statement": "add_fields appends new names in the order given and replaces fields of the same name in place; set_fields starts from scratch; hidden_fields and public_fields partition fields preserving order.", "quantifier": "every sequence of additions", "why_tests_cant": "all histories", "anchors": ["src/fauxdoc/profile.py:Schema.add_fields", "src/fauxdoc/profile.py:Schema.set_fields", "src/fauxdoc/profile.py:Schema.hidden_fields", "src/fauxdoc/profile.py:Schema.public_fields"]}
{"id": "C50", "title": "CopyFields reproduces what its source fields last emitted", "statement": "For one single-valued source given singly CopyFields emits exactly its previous value; otherwise it emits the flattened non-None values in field order (None if there are none), joined by separator if given.", "quantifier": "every source group and cached values", "why_tests_cant": "all values", "anchors": ["src/fauxdoc/emitters/fromfields.py:CopyFields.emit", "src/fauxdoc/emitters/fromfields.py:SourceFieldGroup.single_valued"]}
{"id": "C51", "title": "In a document, a copying field placed after its source agrees with the source", "statement": "If field g uses CopyFields(f) and f comes before g in the schema, then in every document g has the value f has in the same document.", "quantifier": "every schema, every history", "why_tests_cant": "all schemas and histories", "anchors": ["src/fauxdoc/profile.py:Schema.__call__", "src/fauxdoc/emitters/fromfields.py:CopyFields.emit"]}
{"id": "C52", "title": "Resetting a seeded schema replays the same documents", "statement": "After seed_fields(s) and reset_fields(), the documents generated depend only on the configuration and s, not on anything generated before: two runs give identical documents.", "quantifier": "every schema built from library emitters (pure wrapper functions and factories), every prior history", "why_tests_cant": "all histories and compositions", "anchors": ["src/fauxdoc/profile.py:Schema.reset_fields", "src/fauxdoc/profile.py:Schema.seed_fields", "src/fauxdoc/mixins.py:RandomWithChildrenMixin"]}
{"id": "C53", "title": "A seed given to an emitter is honoured when it is used in a field", "statement": "An emitter constructed with rng_seed=s keeps producing the sequence of seed s after being attached to a Field (or wrapped) that has no seed of its own.", "quantifier": "every emitter and field", "why_tests_cant": "depends on constructor order", "anchors": ["src/fauxdoc/mixins.py:RandomWithChildrenMixin.reset", "src/fauxdoc/profile.py:Field.__init__"]}
{"id": "C54", "title": "Fields that share no emitter do not influence each other", "statement": "Calling, resetting or seeding one field leaves the outputs of every field with disjoint emitters unchanged.", "quantifier": "every pair of fields with disjoint emitters, every operation", "why_tests_cant": "all heaps", "anchors": ["src/fauxdoc/profile.py:Field", "src/fauxdoc/mixins.py:ChildrenMixin"]}
{"id": "C55", "title": "Group operations reach every member that supports them and skip the others", "statement": "do_method calls the method on every non-None member having it, in order, ignoring members without it; setattr sets only existing attributes; nothing else changes.", "quantifier": "every group content", "why_tests_cant": "all contents", "anchors": ["src/fauxdoc/group.py:GroupMixin.do_method", "src/fauxdoc/group.py:GroupMixin.setattr"]}
{"id": "C56", "title": "Deprecated attributes resolve and warn, others raise AttributeError", "statement": "get_deprecated_attr returns the registered object with exactly one DeprecationWarning naming the replacement if there is one, and raises AttributeError iff the name is not registered.", "quantifier": "every name and registry", "why_tests_cant": "all names", "anchors": ["src/fauxdoc/warn.py:get_deprecated_attr"]}
{"id": "C57", "title": "The stop attribute of a range is its next term", "statement": "For a date or datetime range made by dtrange with stop in the direction of the step, r.stop is the requested stop when stop is a whole number of steps away, and otherwise the first term of the sequence beyond it (less than one step away); reading it raises OverflowError only if that term is outside of the calendar.", "quantifier": "every pair of dates or datetimes and every non-zero whole step in that direction", "why_tests_cant": "depends on divisibility over an unbounded domain", "anchors": ["src/fauxdoc/dtrange.py:DateOrTimeRange.stop", "src/fauxdoc/dtrange.py:dtrange"]}
{"id": "C59", "title": "Asking for a negative number of values is harmless", "statement": "Calling an emitter with a negative number (or with 0) does not change what it emits afterwards; it returns an empty list or raises an exception.", "quantifier": "every composition of emitters, every state, every n <= 0", "why_tests_cant": "all compositions and states", "anchors": ["src/fauxdoc/emitter.py:Emitter.__call__", "src/fauxdoc/emitters/choice.py:Choice.emit_many"]}
{"id": "C60", "title": "A rejected wrapper function leaves the emitter unchanged", "statement": "Assigning a function that the emitter refuses (an exception is raised because its signature does not fit) leaves the emitter with the function it had, and in any case touches nothing but the emitter and its own parts.", "quantifier": "every WrapOne and WrapMany, every function, every state", "why_tests_cant": "all functions and object graphs", "anchors": ["src/fauxdoc/emitters/wrappers.py:WrapOne.wrapper", "src/fauxdoc/emitters/wrappers.py:WrapMany.wrapper"]}
{"id": "C61", "title": "BasedOnFields is functionally equivalent to wrapping CopyFields", "statement": "BasedOnFields(field, f) and WrapOne(CopyFields(field), f) emit the same values, singly and in batches, as the documentation of BasedOnFields says.", "quantifier": "every single-valued source field, every function, every n", "why_tests_cant": "all functions, including those that draw random numbers", "anchors": ["src/fauxdoc/emitters/fromfields.py:BasedOnFields", "src/fauxdoc/emitters/wrappers.py:WrapOne"]}
{"id": "C64", "title": "Emitters are never part of themselves", "statement": "Whatever sequence of constructors, assignments, calls, resets and seedings a program executes (exceptions included), an emitter is never (directly or through others) one of its own parts, and emitters and fields refer only to objects that exist; so emitting, resetting and seeding an emitter recurse only finitely deep.", "quantifier": "every program using the API", "why_tests_cant": "all programs; needs an invariant over the object graph", "anchors": ["src/fauxdoc/mixins.py:ChildrenMixin", "src/fauxdoc/profile.py:Field", "src/fauxdoc/emitters/wrappers.py:WrapOne"]}
{"id": "C58", "title": "A range never changes", "statement": "Once constructed, a date/time range is immutable: assigning to start, step, length or stop raises AttributeError, and every use of the object (attributes, len, indexing, slicing, iteration, in, index, count, ==, hash, repr) shows the same whatever has been done with the object before, although stop and repr are computed lazily and kept.", "quantifier": "every range that can be constructed, every history of uses and assignments", "why_tests_cant": "all histories of uses of one object", "anchors": ["src/fauxdoc/dtrange.py:DateOrTimeRange"]}
{"id": "C62", "title": "A range can be given any length that int() accepts", "statement": "The constructor of DateOrTimeRange accepts as length an int or anything castable to an int, as its error message says.", "quantifier": "every start, step and length", "why_tests_cant": "all types of lengths", "anchors": ["src/fauxdoc/dtrange.py:DateOrTimeRange.__init__", "src/fauxdoc/dtrange.py:DateOrTimeRange.length"]}
{"id": "C63", "title": "reversed() of a range yields its elements in reverse", "statement": "list(reversed(r)) is list(r) reversed; it raises the same exception if list(r) raises.", "quantifier": "every range of dates, times or datetimes, at any point of its life", "why_tests_cant": "all lengths and steps", "anchors": ["src/fauxdoc/dtrange.py:DateOrTimeRange.__getitem__", "src/fauxdoc/dtrange.py:DateOrTimeRange.__len__"]}
{"id": "C65", "title": "A program that seeds everything shows the same in every run", "statement": "If every emitter and field of a program that has an rng_seed is created with a seed other than None, and nothing is ever seeded or assigned None as its seed, then every call made by the program returns or raises the same in every run of the program.", "quantifier": "every program (any sequence of constructors, settings, calls, resets and seedings of any objects, with exceptions anywhere) and any two runs of it", "why_tests_cant": "all programs, and any entropy the operating system may provide", "anchors": ["src/fauxdoc/mixins.py:RandomMixin", "src/fauxdoc/mixins.py:RandomWithChildrenMixin", "src/fauxdoc/profile.py:Field", "src/fauxdoc/emitters/choice.py:Choice", "src/fauxdoc/emitters/wrappers.py:WrapOne", "src/fauxdoc/emitters/fromfields.py:BasedOnFields"]}
{"id": "C66", "title": "After seed_fields and reset_fields, a schema depends only on how it was built", "statement": "Two programs that construct the same objects and make the same settings in the same order, and otherwise do what they like with the objects (call, reset and seed them in any way), end with schemas that generate the same documents, and respond the same to any further calls, resets and seedings, once seed_fields(s) and reset_fields() have been called on both with the same s.", "quantifier": "every pair of programs with the same constructors and settings (none of which raised), any runs, any schema of their fields that does not read fields outside of it and whose iterator factories are repeatable, every seed other than None, every sequence of later operations on the schema", "why_tests_cant": "all programs, runs and histories", "anchors": ["src/fauxdoc/profile.py:Schema.seed_fields", "src/fauxdoc/profile.py:Schema.reset_fields", "src/fauxdoc/mixins.py:RandomWithChildrenMixin"]}
{"id": "C67", "title": "Settings stay until they are assigned, and assignments mean what they say", "statement": "The settings of an emitter or field (value, items, weights, flags, child emitters, wrapper function, source fields, separator, name, hide) do not change by any use of any objects, nor by exceptions, only by an assignment to a setting of that object; a successful assignment sets exactly the setting assigned, and what depends on it: cum_weights are the running sums of weights and conversely, replace=False clears replace_only_after_call, replace_only_after_call=True sets replace.", "quantifier": "every program and every object in it; every assignment in every reachable state", "why_tests_cant": "all programs and all ways objects can share parts", "anchors": ["src/fauxdoc/emitters/fixed.py", "src/fauxdoc/emitters/choice.py:Choice", "src/fauxdoc/emitters/text.py", "src/fauxdoc/emitters/wrappers.py", "src/fauxdoc/emitters/fromfields.py", "src/fauxdoc/profile.py:Field"]}
{"id": "C68", "title": "A new object has the settings given to its constructor, and the documented defaults", "statement": "After a successful construction the new object is a new one and its settings are the constructor's arguments; by default Text separates by one space, a Field's repeat_emitter is Static(None), its gate_emitter Static(True) and its last value None; num_unique_values of Word and Text is computed from the emitters given.", "quantifier": "every constructor, all arguments, every state of the other objects", "why_tests_cant": "all arguments and states", "anchors": ["src/fauxdoc/emitters/fixed.py", "src/fauxdoc/emitters/choice.py:Choice", "src/fauxdoc/emitters/text.py", "src/fauxdoc/emitters/wrappers.py", "src/fauxdoc/emitters/fromfields.py", "src/fauxdoc/profile.py:Field"]}
{"id": "C69", "title": "An emitter that is part of others behaves as if it were used on its own", "statement": "Whatever is done with objects that share an emitter, the emitter itself only undergoes its own operations: at every time its state is one that it could have reached by calls, resets, seedings and assignments of its own, so all that holds for histories of a single Iterative, Sequential or Choice holds for it as part of words, texts, wrappers, fields and schemas.", "quantifier": "every program, every emitter in it", "why_tests_cant": "all programs and all ways of sharing", "anchors": ["src/fauxdoc/emitter.py:Emitter", "src/fauxdoc/mixins.py:RandomWithChildrenMixin", "src/fauxdoc/group.py:ObjectGroup", "src/fauxdoc/emitters/fixed.py", "src/fauxdoc/emitters/choice.py:Choice", "src/fauxdoc/emitters/text.py", "src/fauxdoc/emitters/wrappers.py", "src/fauxdoc/emitters/fromfields.py", "src/fauxdoc/profile.py:Field"]}
{"id": "C70", "title": "Every value an emitter emits is one its settings allow", "statement": "Whatever has been done before, a value that an emitter emits, alone or in a batch, is made from its current settings: the value of a Static, an item of a Sequential or Choice, an item of an iterator of an Iterative's factory; a word is as many letters of the alphabet emitter as a length of the length emitter says, a text as many words as its numwords emitter says with separators between; a wrapper's value is what its function returns for values its sources can emit; CopyFields and BasedOnFields use the last values of their fields.", "quantifier": "all compositions of emitters and fields, all programs before the call, every call and batch size; numbers and lengths not negative, numbers of words in a text positive", "why_tests_cant": "arbitrarily deep compositions and arbitrary histories", "anchors": ["src/fauxdoc/emitter.py:Emitter.__call__", "src/fauxdoc/emitters/fixed.py", "src/fauxdoc/emitters/choice.py:Choice", "src/fauxdoc/emitters/text.py", "src/fauxdoc/emitters/wrappers.py", "src/fauxdoc/emitters/fromfields.py"]}
{"id": "C71", "title": "num_unique_values of words and texts bounds the number of different values ever given", "statement": "In the course of a program, the different values that all calls of a Word or Text return, single or in batches, are at most as many as its num_unique_values says, provided nothing is assigned to it or to what it is made of. num_unique_values is calculated when the object is made and does not change afterwards.", "quantifier": "all programs, all words and texts in them (of any nesting), all calls", "why_tests_cant": "unbounded numbers of calls and arbitrary compositions", "anchors": ["src/fauxdoc/emitters/text.py:Word.num_unique_values", "src/fauxdoc/emitters/text.py:Text.num_unique_values", "src/fauxdoc/emitters/text.py:Word._update_num_unique_vals", "src/fauxdoc/emitters/text.py:Text._update_num_unique_vals", "src/fauxdoc/emitters/choice.py:Choice.num_unique_values", "src/fauxdoc/mixins.py:ItemsMixin.num_unique_values"]}
{"id": "C72", "title": "No command of a program hangs", "statement": "Every constructor, assignment, call, reset and seeding returns or raises an exception; none goes on for ever, whatever exceptions have been raised before. This asks nothing of the user but that their functions end, that their iterator factories do not give empty iterators for ever, and that their weights are numbers that are zero or at least 2^-1021.", "quantifier": "all programs: all sequences of commands on emitters, fields and schemas in any composition, all batch sizes (negative ones included), all seeds and random generators", "why_tests_cant": "termination on every input; arbitrarily long histories and arbitrarily deep compositions", "anchors": ["src/fauxdoc/mathtools.py:weighted_shuffle", "src/fauxdoc/emitters/fixed.py:make_infinite_iter", "src/fauxdoc/emitters/fixed.py:Iterative", "src/fauxdoc/emitters/fixed.py:Sequential", "src/fauxdoc/emitters/choice.py:Choice", "src/fauxdoc/emitters/text.py:Text._get_words_iterator", "src/fauxdoc/mixins.py:RandomWithChildrenMixin", "src/fauxdoc/profile.py:Field"]}
{"id": "C73", "title": "Seeding alone is enough to replay what has no position", "statement": "em.seed(s) reaches every part of an emitter, at any depth, that has an rng: afterwards it is as a reset with that seed leaves it. So an emitter without Iterative and Sequential parts does, from seed(s) on, the same whatever was done before, and the same as after em.rng_seed = s; em.reset(). Likewise for schema.seed_fields(s), if the fields have the same previous values. With an Iterative or Sequential, or with a field that reads a field called after it, seeding without resetting does not replay.", "quantifier": "all emitters and schemas of any composition, all histories before, all sequences of operations after, all seeds other than None, all random generators", "why_tests_cant": "all histories and all compositions of emitters", "anchors": ["src/fauxdoc/mixins.py:RandomWithChildrenMixin.seed", "src/fauxdoc/mixins.py:RandomMixin.seed", "src/fauxdoc/emitters/choice.py:Choice.seed", "src/fauxdoc/emitters/text.py:Word.seed", "src/fauxdoc/emitters/text.py:Text.seed", "src/fauxdoc/profile.py:Schema.seed_fields"]}
{"id": "C74", "title": "Ranges of datetimes with time zones", "statement": "A range of datetimes has elements in the time zone of start. If stop has the same tzinfo, the elements are the terms start + i*step before stop, as the clock shows them. If it has another, and both offsets are constant, they are the terms before stop in time. A datetime is in the range iff a term is at the same instant. Naive and aware values do not mix: dtrange, in, index and count raise TypeError. For zones whose offset changes, with stop or the value in another zone, elements may be after stop, and a value may be in the range that equals no element. For naive values nothing of this matters.", "quantifier": "all zones (any function giving offsets), all datetimes, all non-zero steps, all indices", "why_tests_cant": "all zones, instants and steps; sizes without bound", "anchors": ["src/fauxdoc/dtrange.py:dtrange", "src/fauxdoc/dtrange.py:_index_to_value", "src/fauxdoc/dtrange.py:_value_to_index", "src/fauxdoc/dtrange.py:DateOrTimeRange"]}
{"id": "C75", "title": "Ranges of times lose the time zone", "statement": "Every element of a range of times is naive, also when start has a tzinfo. So for an aware start no element equals start, and asking whether an element is in the range raises TypeError. How many elements the range has follows from the difference of start and stop in UTC (zones that are always the same distance from UTC).", "quantifier": "all aware times, lengths, steps and indices", "why_tests_cant": "every element of every such range", "anchors": ["src/fauxdoc/dtrange.py:dtrange", "src/fauxdoc/dtrange.py:_index_to_value", "src/fauxdoc/dtrange.py:_value_to_index", "src/fauxdoc/dtrange.py:DateOrTimeRange"]}
{"id": "C76", "title": "Equality and hashing of ranges with time zones", "statement": "Equal ranges have equal hashes, whatever their time zones and folds. Equal ranges of datetimes with constant offsets have equal elements; equal ranges of times, or of datetimes in zones whose offset changes, need not.", "quantifier": "all pairs of ranges, all zones", "why_tests_cant": "all pairs of ranges over all zones", "anchors": ["src/fauxdoc/dtrange.py:DateOrTimeRange.__eq__", "src/fauxdoc/dtrange.py:DateOrTimeRange.__hash__", "src/fauxdoc/dtrange.py:_index_to_value"]}
{"id": "C77", "title": "A fractional step of dtrange is a whole number of microseconds, exact whenever the step is", "statement": "dtrange accepts a float as step. The range is the one for the step timedelta makes of it: exactly step times the unit if that is a whole number of microseconds, otherwise a whole number of microseconds at most half a microsecond (and 2**-14) away; its elements are start plus multiples of that number. NaN and non-numbers raise ValueError, infinities OverflowError, a step that is rounded to 0 ZeroDivisionError.", "quantifier": "all starts and stops of all kinds, all units, all IEEE doubles and other objects as step", "why_tests_cant": "2**64 doubles times all units and bounds; rounding cases are rare", "anchors": ["src/fauxdoc/dtrange.py:dtrange", "src/fauxdoc/dtrange.py:_index_to_value"]}
{"id": "C78", "title": "Groups of objects are lists", "statement": "An ObjectGroup can be used as a list of its members: iterating, indexing, append, extend, insert and pop do to the group what they do to the list, do_method goes through the members it has at the time, and a slice, a sum, a multiple or a copy of a group is a group with the members the slice, sum, multiple or copy of the list has, so that do_method and setattr through it reach those members. The same for the group of source fields of CopyFields and BasedOnFields, whose copy also is single-valued if the group is.", "quantifier": "all groups, all indices, slices and factors, all methods", "why_tests_cant": "all groups times all slices times all methods", "anchors": ["src/fauxdoc/group.py:ObjectGroup", "src/fauxdoc/emitters/fromfields.py:SourceFieldGroup"]}
{"id": "C79", "title": "A wrapper that is handed on is bound anew", "statement": "em2.set_wrapper_function(em1.wrapper) (likewise set_action_function and the constructors) gives em2 the function of em1 with the generator of em2. From then on the two do not affect each other: every emitter calls its function with its own generator, and changing the function of one wrapper changes no other emitter.", "quantifier": "every program that constructs emitters and wrappers, hands them on, assigns functions, emits and resets", "why_tests_cant": "all programs and all functions", "anchors": ["src/fauxdoc/emitters/wrappers.py:BoundWrapper.__init__", "src/fauxdoc/emitters/wrappers.py:BoundWrapper.function", "src/fauxdoc/emitters/wrappers.py:WrapOne.set_wrapper_function", "src/fauxdoc/emitters/wrappers.py:WrapMany.set_wrapper_function", "src/fauxdoc/emitters/fromfields.py:BasedOnFields.set_action_function"]}
{"id": "C80", "title": "Ranges of datetimes in one time zone work like ranges of naive datetimes", "statement": "If start and stop have the same tzinfo, then creating the range, len, r[i], list(r), slices, stop, index, in, count and == do what they do for the naive datetimes, with the tzinfo put into the results; exceptions are the same. In particular list(r[a:b:c]) == list(r)[a:b:c]. The elements are a step apart in time, and the first one is start.", "quantifier": "all zones, all datetimes, both folds, all steps, indices and slices", "why_tests_cant": "all zones, values, steps and slices", "anchors": ["src/fauxdoc/dtrange.py:dtrange", "src/fauxdoc/dtrange.py:DateOrTimeRange.__getitem__", "src/fauxdoc/dtrange.py:_index_to_value", "src/fauxdoc/dtrange.py:_value_to_index"]}
{"id": "C81", "title": "weighted_shuffle draws one by one in proportion to the weights", "statement": "weighted_shuffle(items, weights, rng, k) returns the items i1, ..., ik, in this order, with the probability of drawing them one by one without replacement: i1 with probability w(i1) / (sum of all weights), then i2 with probability w(i2) / (sum of the weights of the others), and so on. Both algorithms (for up to 42 percent of the items, and for more) give the same distribution.", "quantifier": "all lists of items (the probabilities are those of positions), all weights, all k, all results; the random numbers of the generator are uniform and independent", "why_tests_cant": "a probability is a statement about all values of the generator at once", "anchors": ["src/fauxdoc/mathtools.py:weighted_shuffle"]}
{"id": "C82", "title": "Choice emits items with the probabilities that its weights give", "statement": "With replacement the values of a call are independent, and each is an item with probability (its weight) / (sum of the weights), or 1/n without weights. Without replacement, and with replacement only after a call, values are drawn one by one, each with probability proportional to its weight among the items left; without weights all arrangements are equally probable. chance(p) emits True with probability p. poisson_choice and gaussian_choice emit the item at position x with probability proportional to the greater of weight_floor and the value of the distribution at x + 1.", "quantifier": "all lists of distinct items, all weights, all numbers, all results; the random numbers of the generator are uniform and independent", "why_tests_cant": "a probability is a statement about all values of the generator at once", "anchors": ["src/fauxdoc/emitters/choice.py:Choice", "src/fauxdoc/emitters/choice.py:chance", "src/fauxdoc/emitters/choice.py:poisson_choice", "src/fauxdoc/emitters/choice.py:gaussian_choice", "src/fauxdoc/mathtools.py:weighted_shuffle"]}
{"id": "C83", "title": "Successive calls of a Choice are independent, or go on drawing from what is left", "statement": "With replacement the values of all calls c(n1), c(n2), ... are independent, each an item with probability proportional to its weight (1/n without weights), so how many values are asked for at a time does not matter. Without replacement the values of all calls together are drawn one by one, each with probability proportional to its weight among the items left.", "quantifier": "all lists of distinct items, all weights, all sequences of calls of a new Choice, all results; the random numbers of the generator are uniform and independent", "why_tests_cant": "a probability is a statement about all values of the generator at once; all sequences of calls", "anchors": ["src/fauxdoc/emitters/choice.py:Choice", "src/fauxdoc/emitter.py:Emitter.__call__"]}
{"id": "C84", "title": "Objects set up alike and given the same seed do the same, wherever they are", "statement": "Take two schemas (or two emitters with their parts) that were set up with the same classes, settings and connections, in two runs of programs or in one program, whatever else these programs made or did before. After both are seeded with the same seed and reset, every sequence of operations has the same outcomes with the one as with the other.", "quantifier": "all pairs of reachable programs, all schemas and emitter trees of any size set up alike in them, all histories before, all seeds, all sequences of operations afterwards", "why_tests_cant": "a test compares one pair of programs for a few calls; the claim is about every pair of programs and every later sequence of operations", "anchors": ["src/fauxdoc/profile.py:Schema", "src/fauxdoc/profile.py:Field", "src/fauxdoc/mixins.py:RandomMixin", "src/fauxdoc/mixins.py:RandomWithChildrenMixin"]}
{"id": "C85", "title": "Fields of a schema that is seeded as a whole vary independently of each other", "statement": "After seed_fields(s) and reset_fields(), fields that do not read each other and share no emitters vary independently: whatever values the one and the other may have, some seed gives both in one document. (False: all fields get the same seed, so fields that are set up alike have the same value in every document.)", "quantifier": "all schemas, all pairs of fields set up alike, all seeds, all numbers of documents", "why_tests_cant": "about all seeds; that two fields agree in the documents of a test says nothing about the others", "anchors": ["src/fauxdoc/profile.py:Schema.seed_fields", "src/fauxdoc/mixins.py:RandomWithChildrenMixin.seed"]}
{"id": "C86", "title": "What a seeded Word or Field gives is what its parts give, each given the same seed alone", "statement": "A Word (or a Field) that is seeded and reset gives, call after call, what one would put together by hand from its parts, each of them seeded with the same seed and reset in a program of its own: the length from the length emitter and that many letters from the alphabet emitter; a value (or as many as the repeat emitter says) from the emitter whenever the gate emitter says so. Exceptions included. The parts must not share emitters, and a field's parts must not read the field itself.", "quantifier": "all reachable programs, all Words and Fields in them whose parts share nothing, of any depth, all seeds, all numbers of calls", "why_tests_cant": "a test compares a few calls for one seed and one nesting of emitters; the claim is about all of them", "anchors": ["src/fauxdoc/emitters/text.py:Word", "src/fauxdoc/profile.py:Field", "src/fauxdoc/mixins.py:RandomWithChildrenMixin"]}
{"id": "C87", "title": "In a seeded field, whether there is a value and which value it is are decided independently", "statement": "Let a field have the gate chance(p) and the emitter Choice(items, weights), and let it be given a random seed. The probability that an item is the first value is p times the item's share of the weights. (False: gate and emitter get the same seed and decide with the same random number; the probability is the length of the part of the item's share of the unit interval that lies below p. With chance(0.5) and two items of equal weight the second item is never the first value.)", "quantifier": "all fields of this form, all p, all lists of items and weights; for the claim about two items: all generators and seeds", "why_tests_cant": "probabilities are about all seeds; a test sees a few", "anchors": ["src/fauxdoc/profile.py:Field", "src/fauxdoc/emitters/choice.py:chance", "src/fauxdoc/emitters/choice.py:Choice", "src/fauxdoc/mixins.py:RandomWithChildrenMixin.seed"]}
{"id": "C88", "title": "The deprecated Wrap class gives the same as WrapMany", "statement": "A subclass of the deprecated class Wrap that emits as WrapMany does can be created whenever WrapMany(sources, wrapper, seed) can, and from then on everything done with it and its sources has the same outcomes. After its creation the sources are in their reset state. Assigning another wrapper to it changes nothing else: sources are neither called nor reset.", "quantifier": "all reachable states of all objects, all sources and functions, all seeds other than None, all histories of calls, resets and seedings of the emitter and its parts", "why_tests_cant": "the two classes set themselves up in different ways (one calls all sources, checks the function and resets everything, the other does not); that this makes no difference has to hold for all sources and all later uses", "anchors": ["src/fauxdoc/emitters/wrappers.py:_deprecated_Wrap", "src/fauxdoc/emitters/wrappers.py:WrapMany", "src/fauxdoc/mixins.py:RandomWithChildrenMixin"]}
{"id": "C89", "title": "Emitter classes written by users", "statement": "An object of a class that a user derives from Emitter answers obj(), obj(1) and obj(n) with what its emit and emit_many return, in the order of the calls; asking it changes nothing but its own attributes and its own generator. With RandomMixin, seed(s) gives it the generator of s and leaves its attributes, reset() calls its own reset and starts the generator anew; without RandomMixin it has no seed() and needs no generator. When a schema is seeded with s and reset, at any point, every such object inside its fields whose reset restores one state is in that state with the generator of s, and gives what its methods give from there.", "quantifier": "all classes given by their emit, emit_many and reset (any partial functions of attributes and generator), all states, all sequences of calls, all earlier histories, all seeds", "why_tests_cant": "the classes are not known to the tests, and the state of the object, its generator and the other objects must be right after every history", "anchors": ["src/fauxdoc/emitter.py:Emitter.__call__", "src/fauxdoc/mixins.py:RandomMixin", "src/fauxdoc/profile.py:Schema.seed_fields", "src/fauxdoc/profile.py:Schema.reset_fields"]}
{"id": "C90", "title": "Iterative reads any factory's iterators to the end, one after the other", "statement": "Whatever the factory and its iterators do when they are called (share an iterator, follow changing data, count calls), an Iterative emitter emits exactly the successive elements of the iterator in use and, at its end, those of the next iterator the factory gives; em(n) returns n of them; the values do not depend on how the calls are batched.", "quantifier": "all factories and iterators, as any partial functions of a state of the user, all states, all numbers", "why_tests_cant": "factories are code of the user with its own state and there is no bound on the number of iterators or empty iterators", "anchors": ["src/fauxdoc/emitters/fixed.py:Iterative.emit", "src/fauxdoc/emitters/fixed.py:Iterative.emit_many", "src/fauxdoc/emitters/fixed.py:Iterative.make_infinite_iter"]}
{"id": "C91", "title": "Iterative survives an exception of the user's iterator", "statement": "If the factory or an iterator raises an exception during a call, the call raises it and the emitter goes on with the next call; em(n), whenever it returns, returns n values.", "quantifier": "all factories and iterators, all states, all histories of calls and resets", "why_tests_cant": "the exception can come at any point of any history", "anchors": ["src/fauxdoc/emitters/fixed.py:Iterative.make_infinite_iter", "src/fauxdoc/emitters/fixed.py:Iterative.emit", "src/fauxdoc/emitters/fixed.py:Iterative.emit_many"]}
{"id": "C92", "title": "An accepted factory never makes Iterative loop for ever", "statement": "The constructor and the setter refuse a factory whose iterator is empty, to prevent an infinite loop; once a factory has been accepted, no call goes on for ever.", "quantifier": "all factories and iterators that end, all histories of calls", "why_tests_cant": "non-termination cannot be observed by running, and the factory may behave differently at each call", "anchors": ["src/fauxdoc/emitters/fixed.py:Iterative.check_iter_factory", "src/fauxdoc/emitters/fixed.py:Iterative.iterator_factory", "src/fauxdoc/emitters/fixed.py:Iterative.make_infinite_iter"]}
{"id": "C93", "title": "Sequential follows changes of the list it was given", "statement": "A Sequential made from a list emits, at each position, what the list holds there at the time of the call, and starts again at the end of the list as it is then, however often the list is changed between calls and resets, as long as it is not empty when values are asked for. Once the list has been emptied, asking for a value never returns.", "quantifier": "all lists, all sequences of changes, calls and resets, with and without reset_after_call", "why_tests_cant": "any number of changes at any point between calls", "anchors": ["src/fauxdoc/emitters/fixed.py:Sequential", "src/fauxdoc/mixins.py:ItemsMixin"]}
{"id": "C94", "title": "A Choice with replacement follows changes of its list", "statement": "If the list given to a Choice with replacement (replace=True or replace_only_after_call=True) is changed in place, every later call answers as a new Choice would that was made with the same other arguments from the list as it is now, and goes on with the same generator.", "quantifier": "all lists, weights, seeds and generators; all sequences of changes of the list and calls for any number of values", "why_tests_cant": "any changes at any points between any calls, for every list and generator", "anchors": ["src/fauxdoc/emitters/choice.py:Choice", "src/fauxdoc/mixins.py:ItemsMixin"]}
{"id": "C95", "title": "A Choice without replacement keeps to the items it has shuffled until reset", "statement": "If the list given to a Choice without replacement is changed in place, calls answer as if it had not been changed. At reset() the emitter becomes as a new one made with the same other arguments from the list as it is then, provided the list is not empty and, if there are weights, has its first length. With weights and another length reset() raises ValueError and the emitter keeps its old items and its place among them.", "quantifier": "all lists, weights, seeds and generators; all sequences of changes of the list and calls for any number of values, and a reset after them", "why_tests_cant": "any changes at any points between any calls, for every list and generator", "anchors": ["src/fauxdoc/emitters/choice.py:Choice", "src/fauxdoc/mixins.py:ItemsMixin"]}
{"id": "C96", "title": "The mixins work together in any order that puts them before what stops reset", "statement": "A class built from RandomMixin, ItemsMixin, ChildrenMixin, RandomWithChildrenMixin, Emitter and mixins of the user's, with the bases listed in any order Python accepts in which no class before RandomMixin has a reset() that does not call super().reset() (Emitter's does not), can be constructed with every set of the keywords its classes take; the instance has rng_seed, rng, items and emitters as far as the mixins promise them; any sequence of reset() and seed() calls works; one reset() makes the rng anew exactly once, and with RandomWithChildrenMixin it first hands the seed to the children and resets them last. A keyword no class takes raises TypeError. In every other order the instance has no rng. A class whose reset() begins by reading an attribute that its own __init__ sets only after super().__init__() cannot be constructed.", "quantifier": "all programs of class statements over the library's classes, with any number of user's classes and any bases; all method bodies of the user's classes given by their statements before and after the call of super; all sets of keywords; all sequences of calls", "why_tests_cant": "any number of classes, any order of bases and any depth of inheritance; the order in which methods run is computed from all of them", "anchors": ["src/fauxdoc/mixins.py:RandomMixin", "src/fauxdoc/mixins.py:ItemsMixin", "src/fauxdoc/mixins.py:ChildrenMixin", "src/fauxdoc/mixins.py:RandomWithChildrenMixin", "src/fauxdoc/emitter.py:Emitter"]}
{"id": "C97", "title": "A class derived from a library class inherits all that its reset and seed do", "statement": "For every class a program defines from the library's classes and its own, reset() and seed() do everything that those of any ancestor do, in the same order, provided the classes that are not ancestors of that ancestor pass the call on; Python accepts the class statement if and only if the orders of the bases and their ancestors do not contradict each other. The reset() and seed() of every class of the library are the chains of the methods of its classes in that order.", "quantifier": "all programs of class statements over the library's classes with any number of user's classes; all method bodies; all ancestors", "why_tests_cant": "any inheritance graph and any method bodies", "anchors": ["src/fauxdoc/mixins.py:RandomMixin", "src/fauxdoc/mixins.py:RandomWithChildrenMixin", "src/fauxdoc/emitters/choice.py:Choice.reset", "src/fauxdoc/emitters/text.py:Word.reset", "src/fauxdoc/emitters/fixed.py:Sequential.reset", "src/fauxdoc/profile.py:Field.reset"]}
{"id": "C98", "title": "rng_seed is what was given or assigned last, and decides what happens after a reset", "statement": "A new Choice, Word, Text, wrapper, BasedOnFields or Field has as rng_seed the seed it was constructed with. Assigning to rng_seed sets it and does nothing else. Nothing a program does afterwards changes it, except assigning to it, seeding the object or something it is part of, and resetting something it is part of, or making or changing something that resets it. Emitting never changes it. A reset starts again from the rng_seed at that moment and hands it on to all parts, so after a reset an object does the same whenever it has the same rng_seed, whatever happened before.", "quantifier": "all programs of any length, all objects and all trees of emitters, all seeds, all histories before the reset and all uses after it", "why_tests_cant": "any program may come between setting the seed and the reset, and any history before it", "anchors": ["src/fauxdoc/mixins.py:RandomMixin.rng_seed", "src/fauxdoc/mixins.py:RandomMixin.reset", "src/fauxdoc/mixins.py:RandomMixin.seed", "src/fauxdoc/mixins.py:RandomWithChildrenMixin", "src/fauxdoc/emitters/text.py:Word.reset", "src/fauxdoc/emitters/text.py:Text.reset", "src/fauxdoc/profile.py:Field", "src/fauxdoc/profile.py:Schema.reset_fields"]}
{"id": "C99", "title": "Children replaced through the emitters mapping are used from then on, and only they", "statement": "em.emitters[label] = other makes other the child of that label and changes nothing else, in this emitter or any other; setting the former child back makes everything as it was; a WrapMany can be given more children and del takes one away. From then on em(), em(n), reset() and seed(s) work on the present children: a reset resets the new child and all its parts with the seed of em, values come from the present children, and a replaced child is not touched any more. After a reset with the same seed the values are the same whatever was replaced before, if the present children are the same. If em becomes part of itself, no call, reset or seed of it, or of anything containing it, ever returns; if nothing in it is part of itself, the recursion limit does not matter once it exceeds the number of emitters. (num_unique_values of a Word or Text is not updated.)", "quantifier": "all emitters and trees of emitters, shared and cyclic ones included, all labels and children, all histories of calls, resets, seedings and replacements, all recursion limits", "why_tests_cant": "any emitter can be made a child of any other at any time, so the possible graphs, histories and recursion limits are unbounded", "anchors": ["src/fauxdoc/mixins.py:ChildrenMixin.emitters", "src/fauxdoc/mixins.py:RandomWithChildrenMixin", "src/fauxdoc/group.py:ObjectMap", "src/fauxdoc/emitters/text.py:Word", "src/fauxdoc/emitters/text.py:Text", "src/fauxdoc/emitters/wrappers.py:WrapOne.emit", "src/fauxdoc/emitters/wrappers.py:WrapMany.emit"]}
{"id": "C100", "title": "In a seeded Word, the length of the first word and its letters are decided independently", "statement": "For em = Word(Choice(lengths, weights=lws), Choice(letters, weights=aws)) with a seed, after em.reset() the probability that em() is a given word is the share of its length among lws times the shares of its letters among aws. (Refuted: Word gives the seed to both emitters, so the letters start from the random number that decided the length. It holds when the two emitters are given seeds of their own. What holds with one seed: the exact word for every seed, and the probability of every word, which is the common part of the shares of the length and of the first letter times the shares of the other letters; with the same weights for lengths and letters the first letter tells the length, for every seed.)", "quantifier": "all lengths, letters, weights, seeds, words and states of the emitters; for the word of a seed any arithmetic and any generator", "why_tests_cant": "a test with a few seeds sees plausible words; the words that never occur, and the probabilities, are a statement about all seeds", "anchors": ["src/fauxdoc/emitters/text.py: Word.__init__, Word.reset, Word.seed, Word.emit", "src/fauxdoc/emitters/choice.py: Choice.emit_many, Choice._choice_with_replacement", "src/fauxdoc/mathtools.py"]}
{"id": "C101", "title": "Threads that share a Choice without replacement never get the same item", "statement": "Several threads call em(), em.emit(), em(n), em.emit_many(n) of one Choice(items, replace=False). Whatever the order in which the interpreter runs them, all values returned are distinct entries of items. (Refuted: two threads can get the same item, an item can be left out, and a call can fail with IndexError. What holds: whatever the schedule, only items are returned and only ValueError and IndexError are raised; T threads asking for single values of N items succeed at most T + T^2 + ... + T^N times, so the emitter is exhausted in the end; with calls made one at a time - a lock around them - the calls deal out a permutation of the items in the order in which they end, for all threads together.)", "quantifier": "all items, numbers of threads, requests of each thread and schedules (which thread makes its next step, at every step)", "why_tests_cant": "the interleavings that go wrong are rare and depend on the interpreter; a test cannot go through all schedules", "anchors": ["src/fauxdoc/emitters/choice.py: Choice._choice_without_replacement, Choice.emit, Choice.emit_many", "src/fauxdoc/emitter.py: Emitter.__call__"]}
{"id": "C102", "title": "Threads that share a Choice with replacement get together what one thread would get", "statement": "Several threads ask one Choice(items, weights=...) with replacement, of at least two items, for values (any numbers of values; without weights, numbers other than one). Whatever the schedule, no call fails, each gets as many values as it asked for, all values together are, but for their order, the values of one call em(N) in a single thread, N being their number, and the random generator is left in the same state. For calls made one at a time the outcomes of every Choice are those of a single thread that makes the same calls in the same order.", "quantifier": "all items, weights with a positive finite sum, settings and histories, numbers of threads, requests and schedules; any arithmetic and any generator", "why_tests_cant": "a statement about all schedules", "anchors": ["src/fauxdoc/emitters/choice.py: Choice._choice_with_replacement, Choice.emit, Choice.emit_many", "src/fauxdoc/emitter.py: Emitter.__call__"]}
{"id": "C103", "title": "Threads that share an Iterative or Sequential emitter get together the next values of its sequence", "statement": "Several threads call em(), em.emit(), em(n), em.emit_many(n), n >= 0, of one Iterative or Sequential emitter without reset_after_call. Whatever the schedule, no call fails, and all values together are, but for their order, the next ones of its sequence. (Refuted: a call made while another thread is in the generator fails with ValueError, and em(n) then loses the values it has already taken. What holds, whatever the schedule: a call gets as many values as it asked for or fails with ValueError; no value is given twice; what is returned and what is lost make up the next values of the sequence; nothing is lost when threads ask for single values only. With reset_after_call em() need not give the first value. With calls made one at a time - a lock around them - the outcomes are those of a single thread.)", "quantifier": "all factories whose iterators are not empty, states of the emitter, numbers of threads, requests and schedules", "why_tests_cant": "the interleavings that go wrong are rare and depend on the interpreter; a test cannot go through all schedules", "anchors": ["src/fauxdoc/emitters/fixed.py: Iterative.make_infinite_iter, Iterative.emit, Iterative.emit_many, Iterative.reset, Sequential.emit, Sequential.emit_many, Sequential.reset", "src/fauxdoc/emitter.py: Emitter.__call__"]}
{"id": "C104", "title": "In every document a copy agrees with its source, also when threads share the schema", "statement": "Several threads call one schema in which some fields copy others (CopyFields of a single-valued field that comes earlier). Whatever the schedule, in every document the copy has the value of its source. (Refuted: a field keeps its value in one place for all threads, so another thread's call can come between the two fields; a document can even have, for a field, the value of another thread's call. What holds, whatever the schedule: every document has the public fields in their order, and the value of a field is one that the emitter of this field - or of the field it copies - has given, or its value before. With calls made one at a time the documents are those of a single thread, and copies agree.)", "quantifier": "all lists of fields, hidden or not, emitters as functions of any state, copies of any earlier or later fields, numbers of threads and of documents, and schedules", "why_tests_cant": "the interleavings that go wrong are rare and depend on the interpreter; a test cannot go through all schedules", "anchors": ["src/fauxdoc/profile.py: Field.__call__, Field.previous, Schema.__call__", "src/fauxdoc/emitters/fromfields.py: CopyFields.emit"]}
{"id": "C105", "title": "A call of a Choice that is interrupted has had its effect or none", "statement": "A call of a Choice emitter without replacement is cut off by an exception from outside (KeyboardInterrupt), anywhere. Afterwards the emitter goes on dealing out the items that are left, each once, and refuses with a ValueError when there are none. (Refuted: between the two updates of its counters the emitter has moved on but still counts the lost items; each em() then hands out one of the items that are left, and after that every em() raises an IndexError, while em(n) may return fewer than n values. What holds: at every other point nothing has happened; in a history of calls cut off anywhere no item is handed out twice; with replacement only the generator has moved; after reset() the emitter does what it does after a reset() before those calls.)", "quantifier": "all items, weights, seeds, reachable states, sequences of requests of any sizes, and points at which each of them is cut off", "why_tests_cant": "an interrupt comes between any two instructions; tests do not go through all points of all histories", "anchors": ["src/fauxdoc/emitters/choice.py: Choice._choice_without_replacement, Choice._choice_with_replacement, Choice.reset"]}
{"id": "C106", "title": "reset() puts a Choice right after an assignment that was interrupted", "statement": "An assignment to weights, cum_weights, replace, replace_only_after_call or rng_seed, or a call of seed() or reset(), is cut off by an exception from outside, anywhere. After a reset() the emitter behaves as if it had just been constructed with the settings that it shows. (Refuted in three ways: it may show new weights and emit by the old ones; it may refuse em(n) with replace_only_after_call although there are enough items; replace=False may be shown together with replace_only_after_call=True. What holds: weights assigned again and a reset(), or seed()/reset() called again, or the other value and then the value assigned to replace and a reset(), lead to an emitter that does what one does whose operation was not cut off.)", "quantifier": "all items, weights, seeds, states, settings, and points at which the operation is cut off, with any number of random numbers drawn", "why_tests_cant": "an interrupt comes between any two instructions; tests do not go through all points, and the damage shows only in later calls", "anchors": ["src/fauxdoc/emitters/choice.py: Choice.weights, Choice.cum_weights, Choice.replace, Choice.replace_only_after_call, Choice._set_all_weights, Choice._global_shuffle, Choice.seed, Choice.reset", "src/fauxdoc/mixins.py: RandomMixin.seed, RandomMixin.reset"]}
{"id": "C107", "title": "Documents after a schema call that was interrupted", "statement": "A call of a schema is cut off anywhere, by an exception from outside or by one of its fields. The documents that follow are documents that calls without interruptions give: no row is torn. (Refuted: the fields that came first have moved on and the others have not, so columns that belong together are shifted from then on. What holds: columns are shifted by at most as many rows as calls were cut off, and a later column is never ahead of an earlier one; every document that is completed has the public fields in their order, and copies of earlier fields agree with their sources; what the calls give depends on the emitters only, so that after a reset or a seed of all fields the documents are the same as before, whatever was cut off.)", "quantifier": "all lists of fields, hidden or not, emitters as functions of any state, copies of any fields, histories of calls, and points at which each of them is cut off", "why_tests_cant": "an interrupt comes between any two instructions; tests do not go through all points of all histories", "anchors": ["src/fauxdoc/profile.py: Schema.__call__, Schema.reset_fields, Schema.seed_fields, Field.__call__, Field.previous", "src/fauxdoc/emitters/fromfields.py: CopyFields.emit"]}
{"id": "C108", "title": "An Iterative or Sequential emitter after a call that was interrupted", "statement": "A call of an Iterative or Sequential emitter is cut off anywhere by an exception from outside (KeyboardInterrupt, a signal handler). It costs values, no more than the call asked for, and the next call goes on further down the sequence. (Refuted: if the exception comes while the generator runs, the generator is finished; em(), em.emit() and em(1) then raise StopIteration, and em(n) and em.emit_many(n) silently give an empty list, for ever without reset_after_call. What holds: at any other point the emitter goes on as claimed; a call that comes to its end is one without interruption; and reset() makes the emitter give the sequence from its beginning, whatever was cut off before, if the factory gives the same each time, as that of Sequential does.)", "quantifier": "all emitters, calls, points at which they are cut off, and histories of such calls", "why_tests_cant": "every crash point of every call, in every state of the iterator", "anchors": ["src/fauxdoc/emitters/fixed.py:Iterative.emit", "src/fauxdoc/emitters/fixed.py:Iterative.emit_many", "src/fauxdoc/emitters/fixed.py:Iterative.make_infinite_iter", "src/fauxdoc/emitters/fixed.py:Iterative.reset", "src/fauxdoc/emitters/fixed.py:Sequential.emit", "src/fauxdoc/emitters/fixed.py:Sequential.emit_many"]}
{"id": "C109", "title": "A Sequential emitter whose assignment of iterator_factory was interrupted", "statement": "An assignment to iterator_factory of a Sequential emitter that is cut off anywhere by an exception from outside has been made or has not been made: from then on what is emitted is in em.items. (Refuted: items is written first, the factory then, and the generator last. What holds: an emitter that had only its own factory gives the rest of the current run through its old items and then the new ones over and over. If a factory had been assigned before, em.items shows the new items and the old ones are emitted, for ever and also after reset() if the factory was not written yet, until reset() if it was. Assigning again, to the end, repairs everything.)", "quantifier": "all Sequential emitters, lists, points at which the assignment is cut off, and histories of such assignments", "why_tests_cant": "every crash point, in every state of the iterator, and all values emitted afterwards", "anchors": ["src/fauxdoc/emitters/fixed.py:Sequential.iterator_factory", "src/fauxdoc/emitters/fixed.py:Sequential.reset", "src/fauxdoc/emitters/fixed.py:Sequential.emit_many", "src/fauxdoc/emitters/fixed.py:Sequential.__init__"]}
{"id": "C110", "title": "Static and Iterative emitters whose assignments were interrupted", "statement": "An assignment to value of a Static emitter or to iterator_factory of an Iterative emitter that is cut off by an exception from outside has been made or has not been made. (Refuted: value and items of a Static emitter can differ; an Iterative emitter can go on with the old sequence and start the new one at the next reset(). What holds after any history of assignments, cut off or not: a Static emitter emits its value, the last one that was written, and items has the last one whose assignment came to its end; an Iterative emitter without reset_after_call emits the rest of a run through the last sequence whose assignment came to its end, and then that over and over, and after reset() the last sequence that was written.)", "quantifier": "all values, sequences, histories of assignments and calls, and points at which the assignments are cut off", "why_tests_cant": "every crash point of every assignment in every history", "anchors": ["src/fauxdoc/emitters/fixed.py:Static.value", "src/fauxdoc/emitters/fixed.py:Static.emit", "src/fauxdoc/emitters/fixed.py:Static.emit_many", "src/fauxdoc/emitters/fixed.py:Iterative.iterator_factory", "src/fauxdoc/emitters/fixed.py:Iterative.reset", "src/fauxdoc/emitters/fixed.py:Iterative.emit_many"]}
