{
 "claims": [
  {
   "property": "C01",
   "status": "proved",
   "theorems": [
    "C01_dtrange_elements"
   ],
   "note": ""
  },
  {
   "property": "C02",
   "status": "partial",
   "theorems": [
    "C02_wrong_side_partial",
    "C02_wrong_side_raises",
    "C02_wrong_side_refuted"
   ],
   "note": "The property is false of the code: when stop is a full step or more on the wrong side, len() and list() raise ValueError. Proved for less than one step; the failure is proved for every other case."
  },
  {
   "property": "C03",
   "status": "proved",
   "theorems": [
    "C03_getitem"
   ],
   "note": ""
  },
  {
   "property": "C04",
   "status": "proved",
   "theorems": [
    "C04_index_contains_count"
   ],
   "note": ""
  },
  {
   "property": "C05",
   "status": "partial",
   "theorems": [
    "C05_slicing_partial",
    "C05_slicing_refuted",
    "C05_exact"
   ],
   "note": "False in corner cases: an empty slice whose start lies outside the calendar, or a slice step that overflows timedelta, raises OverflowError. Proved: every slice returned is right, and every non-empty slice with a representable step is returned. C05_exact says exactly which slices are refused."
  },
  {
   "property": "C06",
   "status": "partial",
   "theorems": [
    "C06_equality_partial",
    "C06_equal_same_elements_and_hash",
    "C06_equality_refuted",
    "C06_times_exact"
   ],
   "note": "False for time ranges (+1h and -23h give the same times but compare unequal). Proved for dates and datetimes; equality implies same elements and hash for all kinds. C06_times_exact says exactly which time ranges compare equal."
  },
  {
   "property": "C07",
   "status": "proved",
   "theorems": [
    "C07_time_range"
   ],
   "note": ""
  },
  {
   "property": "C08",
   "status": "partial",
   "theorems": [
    "C08_full_clock_partial",
    "C08_full_clock_backwards_raises",
    "C08_full_clock_refuted"
   ],
   "note": "False for every negative step (range with negative length). Proved for every positive step."
  },
  {
   "property": "C09",
   "status": "partial",
   "theorems": [
    "C09_time_slicing_partial",
    "C09_time_slicing_refuted",
    "C09_exact"
   ],
   "note": "False when the slice step times the range step reaches a day (ValueError). Proved below that limit. C09_exact says exactly which slices are refused, and how."
  },
  {
   "property": "C10",
   "status": "partial",
   "theorems": [
    "C10_time_membership_partial",
    "C10_time_membership_refuted",
    "C10_exact"
   ],
   "note": "False for ranges spanning more than one day. Proved for ranges within one lap of the clock. C10_exact says exactly which times are members: those reached within 24 hours."
  },
  {
   "property": "C11",
   "status": "partial",
   "theorems": [
    "C11_step_validation_partial",
    "C11_step_validation_refuted",
    "C11_consequence_refuted",
    "C11_exact",
    "C11_how_near"
   ],
   "note": "False for date steps above 2^34 s because of float rounding. Proved below; the time check is exact for all steps. C11_exact says exactly which date steps are accepted (those nearer to a whole number of days than half the gap between doubles), C11_how_near how far off they can be (less than 8 ms)."
  },
  {
   "property": "C12",
   "status": "partial",
   "theorems": [
    "C12_membership_total_partial",
    "C12_membership_total_refuted",
    "C12_exact"
   ],
   "note": "False for a datetime tested against a date range (TypeError). Proved for all other objects. C12_exact: TypeError in that case and in no other."
  },
  {
   "property": "C13",
   "status": "proved",
   "theorems": [
    "C13_argument_errors"
   ],
   "note": "A zero step raises ZeroDivisionError, as the theorem states."
  },
  {
   "property": "C57",
   "status": "proved",
   "theorems": [
    "C57_stop_attribute"
   ],
   "note": ""
  },
  {
   "property": "C14",
   "status": "proved",
   "theorems": [
    "C14_clamp"
   ],
   "note": ""
  },
  {
   "property": "C15",
   "status": "proved",
   "theorems": [
    "C15_weighted_shuffle"
   ],
   "note": ""
  },
  {
   "property": "C16",
   "status": "partial",
   "theorems": [
    "C16_terminates_partial",
    "C16_terminates_refuted",
    "C16_never_loops",
    "C16_never_loops_doubles",
    "C16_exact"
   ],
   "note": "False in the sorting branch: a draw of exactly 0.0 makes math.log raise ValueError. Proved: the result is returned unless such a draw occurs, and the rejection loop ends within number rounds for every generator. C16_exact says exactly when the error comes."
  },
  {
   "property": "C17",
   "status": "proved",
   "theorems": [
    "C17_few",
    "C17_many",
    "C17_zero_weight"
   ],
   "note": ""
  },
  {
   "property": "C19",
   "status": "proved",
   "theorems": [
    "C19_poisson"
   ],
   "note": ""
  },
  {
   "property": "C20",
   "status": "proved",
   "theorems": [
    "C20_gaussian"
   ],
   "note": ""
  },
  {
   "property": "C18",
   "status": "proved",
   "theorems": [
    "C18_weighted_intervals",
    "C18_doubles_zero_weight"
   ],
   "note": "Exact arithmetic; that zero weights are never chosen is proved for doubles too."
  },
  {
   "property": "C21",
   "status": "partial",
   "theorems": [
    "C21_up_to_170_partial",
    "C21_overflow",
    "C21_any_number_refuted"
   ],
   "note": "False of the code: 171 items or more always raise OverflowError, which is proved. Proved: up to 170 items work."
  },
  {
   "property": "C22",
   "status": "proved",
   "theorems": [
    "C22_own_items"
   ],
   "note": ""
  },
  {
   "property": "C23",
   "status": "proved",
   "theorems": [
    "C23_each_item_once",
    "C23_negative_amount_repeats"
   ],
   "note": "For non-negative amounts; the second theorem shows that a negative amount breaks it."
  },
  {
   "property": "C24",
   "status": "partial",
   "theorems": [
    "C24_unique_per_call_partial",
    "C24_value_error_iff_refuted",
    "C24_exact"
   ],
   "note": "The 'only if' of ValueError is false with weights (a draw of exactly 0.0). All the rest is proved. C24_exact says exactly when ValueError is raised."
  },
  {
   "property": "C25",
   "status": "proved",
   "theorems": [
    "C25_bookkeeping",
    "C25_no_repeats"
   ],
   "note": ""
  },
  {
   "property": "C26",
   "status": "partial",
   "theorems": [
    "C26_consistent",
    "C26_assignment",
    "C26_doubles_refuted"
   ],
   "note": "Proved with exact weights. With doubles the running sums of the weights computed from cum_weights can differ from cum_weights by rounding (witness). C26_assignment holds for doubles."
  },
  {
   "property": "C27",
   "status": "proved",
   "theorems": [
    "C27_no_contradiction"
   ],
   "note": ""
  },
  {
   "property": "C28",
   "status": "proved",
   "theorems": [
    "C28_seed_is_construction"
   ],
   "note": ""
  },
  {
   "property": "C30",
   "status": "partial",
   "theorems": [
    "C30_chance",
    "C30_chance_doubles",
    "C30_any_p_refuted",
    "C30_exact",
    "C30_cancels"
   ],
   "note": "Proved for every p in exact arithmetic. For doubles it is false for huge p, where the weights cancel and every call raises ValueError; C30_exact: it does what the property says for every other finite p. C30_cancels: none between -2^53 and 2^53 cancel, all beyond 2^54 do."
  },
  {
   "property": "C31",
   "status": "proved",
   "theorems": [
    "C31_weight_floor"
   ],
   "note": ""
  },
  {
   "property": "C29",
   "status": "proved",
   "theorems": [
    "C29_batching_choice",
    "C29_batching_fixed"
   ],
   "note": ""
  },
  {
   "property": "C32",
   "status": "proved",
   "theorems": [
    "C32_repeats_forever",
    "C32_construction",
    "C32_replaced_factory",
    "C32_assignments",
    "C32_flag"
   ],
   "note": ""
  },
  {
   "property": "C33",
   "status": "proved",
   "theorems": [
    "C33_empty_refused",
    "C33_back_to_back",
    "C33_no_hang",
    "C33_assignments",
    "C33_flag"
   ],
   "note": "An iterator's elements are fixed when the factory returns it."
  },
  {
   "property": "C55",
   "status": "proved",
   "theorems": [
    "C55_do_method",
    "C55_reaches_everyone",
    "C55_setattr"
   ],
   "note": ""
  },
  {
   "property": "C56",
   "status": "proved",
   "theorems": [
    "C56_deprecated",
    "C56_attribute_error_iff",
    "C56_package_names"
   ],
   "note": ""
  },
  {
   "property": "C35",
   "status": "proved",
   "theorems": [
    "C35_contents",
    "C35_errors",
    "C35_default"
   ],
   "note": ""
  },
  {
   "property": "C36",
   "status": "proved",
   "theorems": [
    "C36_word",
    "C36_words",
    "C36_object"
   ],
   "note": "For any child emitters, given by what calling them does."
  },
  {
   "property": "C37",
   "status": "proved",
   "theorems": [
    "C37_texts",
    "C37_within",
    "C37_object"
   ],
   "note": "For any child emitters that return as many values as asked for; texts of at least one word each (see C38 for 0)."
  },
  {
   "property": "C38",
   "status": "partial",
   "theorems": [
    "C38_count_partial",
    "C38_positive_partial",
    "C38_zero_fails",
    "C38_refuted"
   ],
   "note": "False of the code when a number of words is 0: refuted; proved for numbers of words of at least 1, and the count in general."
  },
  {
   "property": "C39",
   "status": "proved",
   "theorems": [
    "C39_word",
    "C39_text"
   ],
   "note": "Where num_unique_values is an integer."
  },
  {
   "property": "C40",
   "status": "proved",
   "theorems": [
    "C40_wrapone",
    "C40_wrapone_succeeds",
    "C40_errors",
    "C40_object"
   ],
   "note": ""
  },
  {
   "property": "C41",
   "status": "proved",
   "theorems": [
    "C41_emit",
    "C41_emit_many",
    "C41_object"
   ],
   "note": ""
  },
  {
   "property": "C42",
   "status": "partial",
   "theorems": [
    "C42_wrapone",
    "C42_wrapmany_partial",
    "C42_rng_label_fails",
    "C42_wrapmany_refuted",
    "C42_based_partial",
    "C42_wrapone_object",
    "C42_wrapmany_object"
   ],
   "note": "Proved in full for WrapOne. False of the code for WrapMany and BasedOnFields when a source is labelled 'rng' and the function takes an rng: refuted; proved otherwise."
  },
  {
   "property": "C46",
   "status": "proved",
   "theorems": [
    "C46_closed",
    "C46_open",
    "C46_gate",
    "C46_object"
   ],
   "note": ""
  },
  {
   "property": "C47",
   "status": "proved",
   "theorems": [
    "C47_count",
    "C47_multi_valued",
    "C47_object"
   ],
   "note": ""
  },
  {
   "property": "C48",
   "status": "proved",
   "theorems": [
    "C48_schema",
    "C48_keys",
    "C48_errors",
    "C48_document"
   ],
   "note": ""
  },
  {
   "property": "C49",
   "status": "proved",
   "theorems": [
    "C49_order",
    "C49_fields",
    "C49_distinct",
    "C49_set",
    "C49_partition"
   ],
   "note": ""
  },
  {
   "property": "C50",
   "status": "proved",
   "theorems": [
    "C50_single",
    "C50_flattened",
    "C50_joined",
    "C50_many",
    "C50_object"
   ],
   "note": ""
  },
  {
   "property": "C61",
   "status": "partial",
   "theorems": [
    "C61_one",
    "C61_many_partial",
    "C61_refuted",
    "C61_object"
   ],
   "note": "False of the code for functions that use the rng, called for several values: refuted."
  },
  {
   "property": "C45",
   "status": "proved",
   "theorems": [
    "C45_program",
    "C45_previous",
    "C45_new"
   ],
   "note": "For every program of constructions, assignments, calls, resets, seedings and documents, with exceptions at any point."
  },
  {
   "property": "C51",
   "status": "partial",
   "theorems": [
    "C51_copy_partial",
    "C51_copy_refuted",
    "C51_exact"
   ],
   "note": "False of the code for a source field that has emitted the empty list (the copy has None): refuted; proved for single-valued source fields and non-empty lists. C51_exact gives the value of the copy in every case, and exactly when it is that of the field."
  },
  {
   "property": "C52",
   "status": "proved",
   "theorems": [
    "C52_replay"
   ],
   "note": "For wrapper functions that are pure but for their use of the rng, and factories that give the same iterator at every call."
  },
  {
   "property": "C54",
   "status": "proved",
   "theorems": [
    "C54_independent"
   ],
   "note": "For any two sets of fields, and any interleaving of operations."
  },
  {
   "property": "C43",
   "status": "proved",
   "theorems": [
    "C43_wrapone",
    "C43_wrapmany",
    "C43_set",
    "C43_unconsumed"
   ],
   "note": "For every reachable state. Fresh means: the state of a reset, with the wrapper's seed."
  },
  {
   "property": "C44",
   "status": "partial",
   "theorems": [
    "C44_construct_partial",
    "C44_construct_refuted"
   ],
   "note": "False of the code: constructing BasedOnFields calls the source fields. Proved: for all that exists it is exactly as if each source field had been called once."
  },
  {
   "property": "C53",
   "status": "partial",
   "theorems": [
    "C53_same_seed_partial",
    "C53_own_seed_refuted",
    "new_choice_fresh",
    "new_word_fresh",
    "new_text_fresh"
   ],
   "note": "False of the code: a field without a seed overwrites the seeds of its emitters with None. Proved for a field given the same seed."
  },
  {
   "property": "C64",
   "status": "proved",
   "theorems": [
    "reachable_sound",
    "depth_enough"
   ],
   "note": "For every program made of constructors, assignments and operations, with exceptions at any point."
  },
  {
   "property": "C59",
   "status": "partial",
   "theorems": [
    "C59_negative_refuted",
    "C59_nothing_partial",
    "C59_zero",
    "C59_zero_refuted"
   ],
   "note": "False as stated: a negative number given to a Choice without replacement (and hence to anything built on one) changes its next values (refuted with a reachable state). Proved: for compositions of Static, Iterative/Sequential without reset_after_call, Choice with replacement, CopyFields, Word, WrapOne and WrapMany, n <= 0 yields no value and changes nothing; n = 0 does so too for Choice without replacement and Text (C59_zero), but BasedOnFields calls its action even then (C59_zero_refuted)."
  },
  {
   "property": "C60",
   "status": "partial",
   "theorems": [
    "C60_rejected_refuted",
    "C60_confined_partial",
    "C60_exact"
   ],
   "note": "False as stated: the setters install the refused function all the same (refuted). Proved: whether accepted or refused, only the wrapper and its own parts change. C60_exact says exactly when the function is installed."
  },
  {
   "property": "C34",
   "status": "partial",
   "theorems": [
    "C34_count_partial",
    "C34_single_partial",
    "C34_count_refuted"
   ],
   "note": "False as stated: a Text may return fewer texts when a number of words is 0, and negative sizes corrupt Choices without replacement (refuted with a reachable state). Proved for all states reached by programs that never ask for a negative number, whose word lengths and repeat counts are not negative and whose numbers of words are positive: em(n) returns n values, em() one."
  },
  {
   "property": "C58",
   "status": "proved",
   "theorems": [
    "C58_never_changes",
    "C58_read_only",
    "C58_same_as_functions"
   ],
   "note": "The last theorem connects the object with the functions of DtModel.v that C01-C13 and C57 speak of."
  },
  {
   "property": "C62",
   "status": "partial",
   "theorems": [
    "C62_length_partial",
    "C62_length_refuted"
   ],
   "note": "False of the code: a length such as '3' passes the setter, then range(0, length) raises TypeError. Proved for integers."
  },
  {
   "property": "C63",
   "status": "proved",
   "theorems": [
    "C63_reversed"
   ],
   "note": ""
  },
  {
   "property": "C65",
   "status": "proved",
   "theorems": [
    "C65_reproducible"
   ],
   "note": "For every program, with exceptions at any point; the rng of a seed is a function of the seed."
  },
  {
   "property": "C66",
   "status": "proved",
   "theorems": [
    "C66_same_schema"
   ],
   "note": "Computing a score (log of a random number divided by a weight) is assumed not to raise AttributeError."
  },
  {
   "property": "C67",
   "status": "proved",
   "theorems": [
    "C67_kept",
    "C67_kept_field",
    "C67_assigned",
    "C67_assigned_field"
   ],
   "note": "For every program, with exceptions at any point."
  },
  {
   "property": "C68",
   "status": "proved",
   "theorems": [
    "C68_static",
    "C68_iterative",
    "C68_sequential",
    "C68_choice",
    "C68_word",
    "C68_text",
    "C68_wrapone",
    "C68_wrapmany",
    "C68_basedonfields",
    "C68_copyfields",
    "C68_field"
   ],
   "note": "For constructors that succeed, whatever has been done before. An empty list of weights counts as none, as in the code."
  },
  {
   "property": "C69",
   "status": "proved",
   "theorems": [
    "C69_steps",
    "C69_alone"
   ],
   "note": "For every reachable state; the other emitters have no state but seed and rng."
  },
  {
   "property": "C70",
   "status": "partial",
   "theorems": [
    "C70_emit_partial",
    "C70_emit_many_partial",
    "C70_refuted",
    "C70_single_refuted"
   ],
   "note": "For programs that ask for no negative number and whose length, numwords and repeat emitters give integers not negative (positive for numwords), see orderly in CountSpec.v. For all programs it is false of the code: a negative length makes the words of a batch too long or too short, and a Choice without replacement asked for -1 values gives too few letters afterwards (both refuted with reachable states)."
  },
  {
   "property": "C71",
   "status": "partial",
   "theorems": [
    "C71_bound_partial",
    "C71_once",
    "C71_bound_refuted"
   ],
   "note": "For programs as in C70 (orderly), without assignments to the parts. With such assignments it is false of the code: the number is calculated once (C71_once), refuted with Word(Static(1), Static('a')) whose length becomes 3. Computing a score is assumed not to raise AttributeError."
  },
  {
   "property": "C72",
   "status": "proved",
   "theorems": [
    "C72_ends",
    "C72_ends_doubles",
    "C72_iterators_matter"
   ],
   "note": "For every arithmetic that satisfies wlaws (NumLaws.v) and for doubles. The loops are bounded by any number that exceeds the number of items of each Choice and the number of empty iterators in a row (harmless in EndSpec.v)."
  },
  {
   "property": "C73",
   "status": "proved",
   "theorems": [
    "C73_reaches",
    "C73_emitter",
    "C73_as_reset",
    "C73_schema",
    "C73_positions_refuted",
    "C73_values_refuted"
   ],
   "note": "Computing a score is assumed not to raise AttributeError. The fields read by the emitter must show the same previous value and rng_seed. The two _refuted theorems show that the conditions in the statement are needed."
  },
  {
   "property": "C74",
   "status": "proved",
   "theorems": [
    "C74_naive",
    "C74_same_zone",
    "C74_same_zone_obtained",
    "C74_two_zones",
    "C74_membership",
    "C74_membership_same",
    "C74_mixed",
    "C74_any_zones_refuted",
    "C74_any_member_refuted"
   ],
   "note": "DtZone.v. Offsets are whole seconds and utcoffset is a function. The _refuted theorems are the last sentences of the statement."
  },
  {
   "property": "C75",
   "status": "proved",
   "theorems": [
    "C75_naive_elements",
    "C75_no_element_inside",
    "C75_zone_refuted",
    "C75_length"
   ],
   "note": "A finding: _index_to_value returns datetime.time(), which drops tzinfo. C75_zone_refuted is what a user would expect (elements have the tzinfo of start), refuted."
  },
  {
   "property": "C76",
   "status": "proved",
   "theorems": [
    "C76_hash",
    "C76_elements",
    "C76_elements_refuted",
    "C76_elements_datetimes_refuted"
   ],
   "note": "The last two are the last part of the statement."
  },
  {
   "property": "C77",
   "status": "proved",
   "theorems": [
    "C77_float_step",
    "C77_elements",
    "C77_other_steps",
    "C77_terms_refuted",
    "C77_count_refuted",
    "C77_positive_refuted"
   ],
   "note": "The refuted ones are consequences one might expect: elements drift away from the multiples of the step, the number of elements is not the distance divided by the step, a positive step can vanish."
  },
  {
   "property": "C78",
   "status": "partial",
   "theorems": [
    "C78_iterates",
    "C78_insert",
    "C78_pop",
    "C78_live",
    "C78_source",
    "C78_refuted",
    "C78_one_member",
    "C78_reaches_nobody",
    "C78_copy_refuted"
   ],
   "note": "False of the code for slices, sums, multiples and copies of an ObjectGroup (C78_refuted): they always have exactly one member, a list or the group, and methods called through them reach nobody. The rest is proved. The copy of a single-valued source group is not single-valued (C78_copy_refuted)."
  },
  {
   "property": "C79",
   "status": "partial",
   "theorems": [
    "C79_own_generator_partial",
    "C79_given",
    "C79_handed_on",
    "C79_apart",
    "C79_assigned_refuted",
    "C79_nested_refuted"
   ],
   "note": "Proved for programs that hand wrappers on through set_wrapper_function, set_action_function and constructors, and may do all else. False when a program assigns the wrapper of one emitter as the wrapper of another, or as the function of another wrapper: the emitter then draws from the generator of the other (both refuted)."
  },
  {
   "property": "C80",
   "status": "partial",
   "theorems": [
    "C80_as_naive",
    "C80_slicing",
    "C80_first",
    "C80_spacing_partial",
    "C80_first_refuted",
    "C80_spacing_refuted"
   ],
   "note": "All operations are those of naive ranges, for all zones and folds (C80_as_naive, C80_slicing). The last sentence is false for zones whose offset changes: elements are a step apart on the clock, not in time, and the first element has fold 0 even if start has fold 1, so it can be an hour before start (both refuted). C80_first and C80_spacing_partial say when it holds."
  },
  {
   "property": "C81",
   "status": "proved",
   "theorems": [
    "C81_few",
    "C81_many",
    "C81_first_sum",
    "C81_positions"
   ],
   "note": "With real numbers instead of doubles (RealNum.v), so rounding is left out. Integrals are iterated, in the order given in the statement. Items with weight 0 may occur in C81_few but not be returned; in C81_many a weight of 0 is a ZeroDivisionError (C17). At most 2^46 items."
  },
  {
   "property": "C82",
   "status": "proved",
   "theorems": [
    "C82_without_replacement",
    "C82_arrangements",
    "C82_with_replacement",
    "C82_uniform",
    "C82_after_call_few",
    "C82_after_call_many",
    "C82_after_call_arrangements",
    "C82_chance",
    "C82_distribution"
   ],
   "note": "As C81. For the first call after construction with a seed. Where random.choice and random.sample decide (no weights), their random integers are taken as floor(random() * n), and sample as its branch with a pool; see RealNum.v."
  },
  {
   "property": "C83",
   "status": "proved",
   "theorems": [
    "C83_with_replacement",
    "C83_uniform",
    "C83_without_replacement"
   ],
   "note": "As C82. Without replacement, while items are left."
  },
  {
   "property": "C84",
   "status": "proved",
   "theorems": [
    "C84_schemas",
    "C84_emitters"
   ],
   "note": "Whichever objects take the place of which is given by two functions on identities. User factories must give the same iterator at each call (pure_factories), as in C52."
  },
  {
   "property": "C85",
   "status": "partial",
   "theorems": [
    "C85_fields_vary_refuted",
    "C85_equal_fields"
   ],
   "note": "Refuted: all fields of a schema get the same seed. What holds instead: fields that are set up alike and share nothing have the same value in every document."
  },
  {
   "property": "C86",
   "status": "proved",
   "theorems": [
    "C86_word",
    "C86_field"
   ],
   "note": "Outcomes of any number of calls, exceptions included."
  },
  {
   "property": "C87",
   "status": "partial",
   "theorems": [
    "C87_product_refuted",
    "C87_same_draw",
    "C87_probability",
    "C87_never"
   ],
   "note": "Refuted with real numbers as random numbers. What holds instead: gate and first value use one and the same random number (any numbers, any generator); the probability of each item (real numbers); the second of two equal items is never first with chance(p), p up to 1/2 (exact numbers, any generator)."
  },
  {
   "property": "C88",
   "status": "proved",
   "theorems": [
    "C88_same",
    "C88_fresh",
    "C88_assign"
   ],
   "note": ""
  },
  {
   "property": "C89",
   "status": "proved",
   "theorems": [
    "C89_calls",
    "C89_calls_plain",
    "C89_reset",
    "C89_seed",
    "C89_seed_plain",
    "C89_new",
    "C89_schema",
    "C89_replay_any_refuted"
   ],
   "note": "The condition on reset is needed: C89_replay_any_refuted. The classes have no child emitters and call no other objects."
  },
  {
   "property": "C90",
   "status": "proved",
   "theorems": [
    "C90_emit",
    "C90_emit_many",
    "C90_negative",
    "C90_batches",
    "C90_fixed_new",
    "C90_fixed_calls"
   ],
   "note": "Factories and iterators are any partial functions of a state of the user. The last two theorems: the model used for the other properties of Iterative is a special case."
  },
  {
   "property": "C91",
   "status": "partial",
   "theorems": [
    "C91_raises",
    "C91_raises_many",
    "C91_no_stop_iteration",
    "C91_finished",
    "C91_stays_finished",
    "C91_reset",
    "C91_goes_on_refuted"
   ],
   "note": "False of the code: after the exception the emitter is finished until reset(): emit raises StopIteration and emit_many(n) returns an empty list (C91_goes_on_refuted). Proved: exactly when which exception is raised, all that a finished emitter does, and that reset revives it."
  },
  {
   "property": "C92",
   "status": "partial",
   "theorems": [
    "C92_hangs",
    "C92_never",
    "C92_new",
    "C92_set",
    "C92_refused",
    "C92_accepted_refuted"
   ],
   "note": "False of the code for factories that hand out an iterator again (C92_accepted_refuted). Proved: exactly when emit goes on for ever; never, if every iterator is not empty when handed out; what the check does."
  },
  {
   "property": "C93",
   "status": "proved",
   "theorems": [
    "C93_live",
    "C93_new",
    "C93_emptied"
   ],
   "note": ""
  },
  {
   "property": "C94",
   "status": "partial",
   "theorems": [
    "C94_follows",
    "C94_weights_stay",
    "C94_one_item",
    "C94_emptied",
    "C94_first_length",
    "C94_reset",
    "C94_grown_refuted"
   ],
   "note": "False of the code with replace_only_after_call when the list has grown (C94_grown_refuted): the number of items is taken once, at construction. C94_follows says when it holds (fits in LiveSpec.v), the others what happens otherwise: weights and another length give ValueError, an emptied list IndexError, more values than the first length ValueError, and reset() changes nothing about it."
  },
  {
   "property": "C95",
   "status": "proved",
   "theorems": [
    "C95_unseen",
    "C95_reset",
    "C95_reset_refused"
   ],
   "note": "The generator is restarted by reset() even if it then fails."
  },
  {
   "property": "C96",
   "status": "proved",
   "theorems": [
    "C96_reset",
    "C96_reset_children",
    "C96_construct",
    "C96_keywords",
    "C96_exact",
    "C96_own_late",
    "C96_refuted"
   ],
   "note": "C96_refuted: without the condition on the order the claim is false (Emitter listed first). The __init__ methods of the concrete classes (Choice, Word, ...) are not part of this model; they are in the others."
  },
  {
   "property": "C97",
   "status": "proved",
   "theorems": [
    "C97_order",
    "C97_rejected",
    "C97_reset",
    "C97_seed",
    "C97_refuted",
    "C97_world_reset",
    "C97_world_seed",
    "C97_choice",
    "C97_field"
   ],
   "note": "C97_refuted: without the condition the claim is false (Sequential listed before Choice). The last four say that the models of reset and seed used elsewhere are what the class statements give."
  },
  {
   "property": "C98",
   "status": "proved",
   "theorems": [
    "C98_kept",
    "C98_kept_field",
    "C98_program",
    "C98_program_field",
    "C98_assigned",
    "C98_assigned_field",
    "C98_new_choice",
    "C98_new_word",
    "C98_new_text",
    "C98_new_wrapone",
    "C98_new_wrapmany",
    "C98_new_based",
    "C98_new_field",
    "C98_reset",
    "C98_reset_field",
    "C98_replay",
    "C98_replay_emitter",
    "C98_direct_refuted"
   ],
   "note": "C98_direct_refuted: it is not only changed directly or by seed(), as the docstring of RandomMixin says: being made part of a Word, wrapper or Field changes it, and so does a reset of these. The resets that replay are those that succeed, with a seed that is not None."
  },
  {
   "property": "C99",
   "status": "proved",
   "theorems": [
    "C99_assign",
    "C99_missing",
    "C99_restore",
    "C99_remove",
    "C99_part",
    "C99_reset",
    "C99_seed",
    "C99_left_alone",
    "C99_replay",
    "C99_loop_made",
    "C99_loop",
    "C99_no_loop",
    "C99_loop_or_not",
    "C99_word",
    "C99_wrapone",
    "C99_wrapmany",
    "C99_count_refuted"
   ],
   "note": "C99_count_refuted: num_unique_values does not follow the children. Labels that Word, Text and WrapOne do not use are not modelled."
  },
  {
   "property": "C100",
   "status": "partial",
   "theorems": [
    "C100_statement_refuted",
    "C100_same_draw",
    "C100_first_letter",
    "C100_tied",
    "C100_probability",
    "C100_apart",
    "C100_apart_probability"
   ],
   "note": "Refuted with real numbers as random numbers: lengths 1 and 2, letters a and b, equal weights, \"b\" has probability 0 instead of 1/4. What holds instead: the first word for every seed, in any arithmetic and with any generator; length and first letter tied together for equal weights; the probability of every word with one seed (real numbers); with seeds of their own the letters are independent of the length and the product is the probability."
  },
  {
   "property": "C101",
   "status": "partial",
   "theorems": [
    "C101_twice_refuted",
    "C101_skips",
    "C101_index_error",
    "C101_values",
    "C101_bound",
    "C101_locked"
   ],
   "note": "Refuted: two threads, four items, both get the same one. What holds instead, for every schedule: only items are returned, only ValueError and IndexError are raised, and the number of single values is bounded; with one call at a time every item is handed out once."
  },
  {
   "property": "C102",
   "status": "proved",
   "theorems": [
    "C102_pooled",
    "C102_locked"
   ],
   "note": "Any number of threads and any schedule. Random.random is one step; Random.choice (one value, no weights) and Random.sample are one step each, so single values without weights are only in C102_locked."
  },
  {
   "property": "C103",
   "status": "partial",
   "theorems": [
    "C103_fails_refuted",
    "C103_lost",
    "C103_reset",
    "C103_nothing_twice",
    "C103_single",
    "C103_locked"
   ],
   "note": "Refuted: two threads, one call each, one fails with ValueError because the generator is running. What holds instead, for every schedule: nothing is given twice, failures are ValueErrors, nothing is lost with single values; with one call at a time everything is as in one thread, also with reset_after_call."
  },
  {
   "property": "C104",
   "status": "partial",
   "theorems": [
    "C104_copies_refuted",
    "C104_other_thread",
    "C104_values",
    "C104_locked"
   ],
   "note": "Refuted: two threads, a field that counts and a copy of it. What holds instead, for every schedule: the fields of the documents and where their values come from; with one call at a time the documents are those of one thread and copies agree. The emitters of a field are one step."
  },
  {
   "property": "C105",
   "status": "partial",
   "theorems": [
    "C105_statement_refuted",
    "C105_short",
    "C105_points",
    "C105_never_twice",
    "C105_with_replacement",
    "C105_reset",
    "C105_whole"
   ],
   "note": "Refuted for a call cut off between the updates of _shuffled_index and _num_unique_items. What holds instead, for every point: what is left behind and what later calls do, no item twice in any history, and that reset() repairs. C105_whole: the steps make up the call of ChoiceModel.v."
  },
  {
   "property": "C106",
   "status": "partial",
   "theorems": [
    "C106_weights_refuted",
    "C106_number",
    "C106_contradiction",
    "C106_weights_again",
    "C106_seed_again",
    "C106_replace_again",
    "C106_after_again",
    "C106_whole"
   ],
   "note": "Refuted three times over. What holds instead, for every point: for each operation, what has to be done to get the emitter that one gets when nothing is cut off. C106_whole: the steps make up the operations of ChoiceModel.v."
  },
  {
   "property": "C107",
   "status": "partial",
   "theorems": [
    "C107_torn_refuted",
    "C107_stays",
    "C107_shift",
    "C107_copies",
    "C107_emitters_decide"
   ],
   "note": "Refuted: two fields that count, the first call cut off between them. What holds instead, for every point: columns are shifted by no more rows than calls were cut off; copies agree in every document that is completed, and the emitters alone decide what comes. The emitters of a field are one step."
  },
  {
   "property": "C108",
   "status": "partial",
   "theorems": [
    "C108_goes_on_refuted",
    "C108_whole",
    "C108_points",
    "C108_finished",
    "C108_reset"
   ],
   "note": "Refuted: em(2) cut off in the generator; em(2) is then []. What holds instead: C108_points says for every point what is left, C108_finished what a finished generator gives, C108_reset that reset() repairs it. The iterators that the factory gives are not cut off inside next()."
  },
  {
   "property": "C109",
   "status": "partial",
   "theorems": [
    "C109_items_refuted",
    "C109_first",
    "C109_later",
    "C109_again",
    "C109_whole"
   ],
   "note": "Refuted: a second factory is assigned and cut off after the items are written. What holds instead is proved for every point. C109_whole: without interruptions the emitter is that of FixedModel.v. Factories give the same list each time."
  },
  {
   "property": "C110",
   "status": "partial",
   "theorems": [
    "C110_made_or_not_refuted",
    "C110_static_refuted",
    "C110_iterative_refuted",
    "C110_static",
    "C110_iterative"
   ],
   "note": "Refuted by a Static emitter cut off after its value is written and by an Iterative one cut off before the reset. C110_static and C110_iterative say for every history what is emitted. Factories give the same list each time."
  }
 ]
}