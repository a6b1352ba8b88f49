# Formal model of fauxdoc in Rocq (Coq 8.16.1)

The source is read as text from /repo; nothing of it is executed. The model is
a shallow embedding: every Python function that is modelled becomes one total
Gallina function with the same branches in the same order, and carries a
comment citing file and lines. Simplifications are named in those comments and
collected in section 5.

## 1. Conventions

* Outcomes are values: `Ok x`, `Raise e` (an exception class), `Diverge` (out
  of fuel). Loops and recursions without a syntactic bound (the rejection loop
  of `weighted_shuffle`, recursion through the emitter graph, factories that
  return empty iterators) take fuel. Running out of fuel is never confused with
  a result; C16 and C64 prove how much fuel is enough.
* Methods that change an object are state-passing functions. An exception keeps
  the state reached when it was raised, as in Python.
* What fauxdoc uses from outside (arithmetic on weights, `random.Random`,
  the operating system's entropy) is one record of operations, `prims`, without
  laws. Theorems that need laws of it state them (`rng_ok`, `wlaws`). Three
  instances are given: exact rationals (`QcNum.v`), IEEE doubles
  (`FloatModel.v`), and real numbers for probabilities (`RealNum.v`).
* User functions are given by their signature and by what calling them does
  (any partial function of the arguments and of the rng state).
* Properties that the code does not have are kept in full view: the exact
  condition under which they hold is proved (`_partial`), and the full statement
  is a definition whose negation is proved with a concrete, reachable witness
  (`_refuted`).

## 2. Files (rocq/theories)

| File | Content |
|---|---|
| `Base.v` | outcomes, state monad, Python list operations |
| `PyRange.v` | CPython `range` objects and slice adjustment |
| `DtModel.v`, `DtSpec.v`, `DtFloat.v`, `DtProofs*.v` | `dtrange.py`; its specification; float checks; proofs |
| `DtZone.v` | ranges of values with time zones |
| `DtStep.v` | steps that are floats, and CPython's conversion to timedelta |
| `DtObject.v` | range objects with their setters and caches; histories of uses |
| `Prims.v`, `QcNum.v`, `FloatModel.v`, `NumLaws.v`, `FloatNum.v`, `Threshold.v` | the outside world and two instances of it; laws used |
| `MathModel.v`, `RealModel.v`, `MathSpec.v`, `NumSpec.v`, `MathProofs.v`, `QcProofs.v`, `RealProofs.v` | `mathtools.py` and the parts of `random` it calls |
| `ChoiceModel.v`, `ChoiceRun.v`, `ChoiceProofs*.v`, `ChanceProofs.v` | `emitters/choice.py` with the mixins; histories of a Choice |
| `FixedModel.v`, `FixedSpec.v`, `FixedProofs.v` | `emitters/fixed.py` |
| `Prop_Exact.v`, `Prop_ExactMath.v`, `Prop_Installed.v` | for claims that are false in corner cases (C05, C06, C09, C10, C12, C16, C24, C60): exactly which cases |
| `BindModel.v`, `Prop_Bind.v` | `BoundWrapper` as an object that can be handed on |
| `Prop_ZoneSame.v` | ranges of datetimes in one zone, compared with naive ones |
| `TwinSpec.v`, `Twin.v`, `Prop_Twin.v` | objects set up alike; the same operations on both; fields of a schema seeded as a whole |
| `Prop_OldWrap.v` | the deprecated class `Wrap` |
| `UserSpec.v`, `Prop_User.v` | emitter classes written by users |
| `IterModel.v`, `IterSpec.v`, `Prop_Iter.v` | Iterative over factories and iterators with state and exceptions, Sequential over a list that changes |
| `LiveSpec.v`, `Prop_Live.v` | Choice over a list that changes |
| `MroModel.v`, `MroSpec.v`, `MroProofs.v`, `MroInit.v`, `Prop_Mro.v`, `Prop_Inherit.v` | class statements, method resolution order, reset, seed and the mixins' `__init__` through `super()` |
| `SeedKeep.v`, `Prop_RngSeed.v` | what an operation does to rng_seed; C98 |
| `ChildModel.v`, `ChildProofs.v`, `Prop_Child.v` | replacing children through `emitters`, emitters that are parts of themselves; C99 |
| `Prop_Chance.v` | chance(p) for every finite double (C30) |
| `Prop_DtCheck.v` | exactly which steps ranges of dates accept (C11) |
| `Prop_Parts.v`, `Prop_Gate.v`, `Prop_GateProb.v` | a seeded Word or Field and its parts seeded alone; the gate and the value of a seeded field |
| `ThreadModel.v`, `ThreadProofs.v`, `Prop_Thread.v` | threads that share a Choice: calls as sequences of steps, schedules; C101, C102 |
| `ThreadIter.v`, `Prop_ThreadIter.v` | threads that share an Iterative or Sequential emitter; C103 |
| `ThreadField.v`, `Prop_ThreadField.v` | threads that share a schema with copies of fields; C104 |
| `CutModel.v`, `Prop_Cut.v`, `Prop_CutSet.v` | calls and assignments of a Choice cut off at any point; C105, C106 |
| `Prop_CutSchema.v` | calls of a schema cut off at any point; C107 |
| `CutIter.v`, `Prop_CutIter.v` | calls of Iterative and Sequential emitters cut off at any point; C108 |
| `CutSeq.v`, `Prop_CutSeq.v` | assignments to iterator_factory of a Sequential emitter cut off at any point; C109 |
| `CutFixed.v`, `Prop_CutFixed.v` | assignments to value of a Static and iterator_factory of an Iterative emitter cut off at any point; C110 |
| `Prop_Spell.v`, `Prop_SpellProb.v` | length and letters of the first word of a seeded Word; C100 |
| `Prop_FixedSet.v` | C32, C33 when `reset_after_call` is assigned between requests |
| `RealNum.v`, `ProbSpec.v`, `ProbProofs.v`, `ProbMany.v`, `Prop_Prob.v`, `Prop_ProbCalls.v` | the outside world with real numbers; probabilities as integrals over the random numbers (Coquelicot) |
| `GroupList.v` | `ObjectGroup`, `SourceFieldGroup` as lists (`UserList`) |
| `GroupModel.v`, `WarnModel.v` | `group.py`, `warn.py` |
| `Values.v`, `SigModel.v`, `SigSpec.v`, `SigProofs.v` | Python values; call signatures, `inspect.Signature.bind`, `BoundWrapper` |
| `WrapModel.v`, `WrapSpec.v` | `WrapOne`, `WrapMany` over arbitrary sources |
| `TextModel.v`, `TextSpec.v`, `TextProofs.v` | `make_alphabet`, `Word`, `Text` over arbitrary children |
| `FieldModel.v`, `FieldSpec.v` | `Field`, `Schema`, `CopyFields`, `BasedOnFields` over arbitrary emitters |
| `World.v` | heap of emitters and fields that refer to each other; all methods, tied together by fuel |
| `WorldBuild.v` | constructors and setters; programs (any sequence of constructions, assignments, calls, resets, seedings) |
| `WorldSpec.v`, `CountSpec.v`, `ProgramSpec.v`, `ObjectSpec.v`, `CallSpec.v`, `EmitSpec.v`, `UniqueSpec.v` | words for stating properties of heaps and programs |
| `Rel.v`, `WorldProofs.v`, `Agree.v`, `WorldReset.v`, `Histories.v`, `BuildProofs.v`, `ObjectProofs.v`, `ObjectCalls.v` | frame, simulation and invariant proofs |
| `Demo.v`, `WorldDemo.v` | a concrete generator and schema for the examples |
| `Mersenne.v` | CPython's generator (MT19937), with a proof that it meets the assumptions on generators (`mersenne_rng_ok`) |
| `Conform_*.v` | the model run on the inputs of /repo/tests, compared with the values expected there (see 5.1) |
| `Prop_*.v` | the property theorems, each with examples that meet its hypotheses and `Print Assumptions` |

## 3. Each property: what is modelled and how it is proved

**C01. dtrange yields exactly the values from start up to, but excluding, stop** (proved)  
Dates are ordinals, datetimes and timedeltas microseconds (Z), times microseconds of the day. Integer arithmetic (division with remainder); elements compared with the specification `DtSpec.on_line`.  
Theorems: `C01_dtrange_elements` (Prop_Dt.v)

**C02. A dtrange whose stop is on the wrong side of start is an empty sequence** (partial)  
Same model; length computation of `dtrange` against the sign of the step.  
The property is false of the code: when stop is a full step or more on the wrong side, len() and list() raise ValueError. Proved for less than one step; the failure is proved for every other case.  
Theorems: `C02_wrong_side_partial` (Prop_Dt.v), `C02_wrong_side_raises` (Prop_Dt.v), `C02_wrong_side_refuted` (Prop_Dt.v)

**C03. Indexing a date/time range follows Python sequence rules** (proved)  
CPython index normalisation in `PyRange.v`; proved against list indexing.  
Theorems: `C03_getitem` (Prop_Dt.v)

**C04. index, membership and count agree with the elements of a date/datetime range** (proved)  
`_value_to_index` inverted on the line of elements.  
Theorems: `C04_index_contains_count` (Prop_Dt.v)

**C05. Slicing a date/datetime range agrees with slicing the list of its elements** (partial)  
CPython `range` slicing in `PyRange.v`, compared with a list slice defined by positions only (`DtSpec.sliced`).  
False in corner cases: an empty slice whose start lies outside the calendar, or a slice step that overflows timedelta, raises OverflowError. Proved: every slice returned is right, and every non-empty slice with a representable step is returned. C05_exact says exactly which slices are refused.  
Theorems: `C05_slicing_partial` (Prop_Dt.v), `C05_slicing_refuted` (Prop_Dt.v), `C05_exact` (Prop_Exact.v)

**C06. Equality and hash of ranges match equality of their element sequences** (partial)  
`__eq__` and `__hash__` as functions of start, step and length; proved equivalent to equality of element lists.  
False for time ranges (+1h and -23h give the same times but compare unequal). Proved for dates and datetimes; equality implies same elements and hash for all kinds. C06_times_exact says exactly which time ranges compare equal.  
Theorems: `C06_equality_partial` (Prop_Dt.v), `C06_equal_same_elements_and_hash` (Prop_Dt.v), `C06_equality_refuted` (Prop_Dt.v), `C06_times_exact` (Prop_Exact.v)

**C07. Time ranges wrap around midnight** (proved)  
Times modulo one day.  
Theorems: `C07_time_range` (Prop_Dt.v)

**C08. A time range with start == stop is the full clock** (partial)  
Times modulo one day; number of steps of a whole lap.  
False for every negative step (range with negative length). Proved for every positive step.  
Theorems: `C08_full_clock_partial` (Prop_Dt.v), `C08_full_clock_backwards_raises` (Prop_Dt.v), `C08_full_clock_refuted` (Prop_Dt.v)

**C09. Slicing a time range agrees with slicing the list of its elements** (partial)  
As C05 with times modulo one day.  
False when the slice step times the range step reaches a day (ValueError). Proved below that limit. C09_exact says exactly which slices are refused, and how.  
Theorems: `C09_time_slicing_partial` (Prop_Dt.v), `C09_time_slicing_refuted` (Prop_Dt.v), `C09_exact` (Prop_Exact.v)

**C10. Every element of a time range is a member of it** (partial)  
As C04 with times modulo one day.  
False for ranges spanning more than one day. Proved for ranges within one lap of the clock. C10_exact says exactly which times are members: those reached within 24 hours.  
Theorems: `C10_time_membership_partial` (Prop_Dt.v), `C10_time_membership_refuted` (Prop_Dt.v), `C10_exact` (Prop_Exact.v)

**C11. A range object never holds a step its element type cannot represent** (partial)  
`timedelta.total_seconds()` and `%` with `SpecFloat`, related to the reals with Flocq.  
False for date steps above 2^34 s because of float rounding. Proved below; the time check is exact for all steps. C11_exact says exactly which date steps are accepted (those nearer to a whole number of days than half the gap between doubles), C11_how_near how far off they can be (less than 8 ms).  
Theorems: `C11_step_validation_partial` (Prop_Dt.v), `C11_step_validation_refuted` (Prop_Dt.v), `C11_consequence_refuted` (Prop_Dt.v), `C11_exact` (Prop_DtCheck.v), `C11_how_near` (Prop_DtCheck.v)

**C12. Membership tests never raise** (partial)  
All kinds of objects that `in` may be given, as a variant.  
False for a datetime tested against a date range (TypeError). Proved for all other objects. C12_exact: TypeError in that case and in no other.  
Theorems: `C12_membership_total_partial` (Prop_Dt.v), `C12_membership_total_refuted` (Prop_Dt.v), `C12_exact` (Prop_Exact.v)

**C13. dtrange rejects inconsistent arguments** (proved)  
All branches of `dtrange` and of the constructor.  
A zero step raises ZeroDivisionError, as the theorem states.  
Theorems: `C13_argument_errors` (Prop_Dt.v)

**C14. clamp keeps a number inside its limits** (proved)  
Comparison of numbers.  
Theorems: `C14_clamp` (Prop_Math.v)

**C15. weighted_shuffle selects items without replacement** (proved)  
Both branches of `weighted_shuffle`; result is a duplicate-free selection of positions, for every arithmetic and generator.  
Theorems: `C15_weighted_shuffle` (Prop_Math.v)

**C16. weighted_shuffle terminates** (partial)  
Fuel for the rejection loop; each round removes an item (laws of arithmetic in `NumLaws.v`, proved for rationals and doubles).  
False in the sorting branch: a draw of exactly 0.0 makes math.log raise ValueError. Proved: the result is returned unless such a draw occurs, and the rejection loop ends within number rounds for every generator. C16_exact says exactly when the error comes.  
Theorems: `C16_terminates_partial` (Prop_Math.v), `C16_terminates_refuted` (Prop_Math.v), `C16_never_loops` (Prop_Math.v), `C16_never_loops_doubles` (Prop_Math.v), `C16_exact` (Prop_ExactMath.v)

**C17. weighted_shuffle orders by weight-scaled score and never selects a zero-weight item** (proved)  
Exact instance: order by log(u)/w in the sorting branch, zero weights never drawn.  
Theorems: `C17_few` (Prop_Math.v), `C17_many` (Prop_Math.v), `C17_zero_weight` (Prop_Math.v)

**C18. Weighted choice picks item i exactly on an interval of length weight_i/total** (proved)  
CPython `random.choices` (bisection of running sums); the set of draws that select item i is an interval of the right length.  
Exact arithmetic; that zero weights are never chosen is proved for doubles too.  
Theorems: `C18_weighted_intervals` (Prop_Choice.v), `C18_doubles_zero_weight` (Prop_Choice.v)

**C19. poisson is the Poisson probability mass function** (proved)  
Over the reals of the standard library.  
Theorems: `C19_poisson` (Prop_Math.v)

**C20. gaussian is the normal density** (proved)  
Over the reals of the standard library.  
Theorems: `C20_gaussian` (Prop_Math.v)

**C21. poisson_choice works for any number of items** (partial)  
`poisson` with its integer-to-float conversions.  
False of the code: 171 items or more always raise OverflowError, which is proved. Proved: up to 170 items work.  
Theorems: `C21_up_to_170_partial` (Prop_Choice.v), `C21_overflow` (Prop_Choice.v), `C21_any_number_refuted` (Prop_Choice.v)

**C22. A Choice emitter only ever emits its own items** (proved)  
Invariant of all histories of a Choice.  
Theorems: `C22_own_items` (Prop_Choice.v)

**C23. Choice without replacement emits each item exactly once until reset** (proved)  
Invariant: what was emitted since the last reset, followed by what is left, is a permutation of the items.  
For non-negative amounts; the second theorem shows that a negative amount breaks it.  
Theorems: `C23_each_item_once` (Prop_Choice.v), `C23_negative_amount_repeats` (Prop_Choice.v)

**C24. replace_only_after_call makes each call unique and forgets between calls** (partial)  
As C23, per call.  
The 'only if' of ValueError is false with weights (a draw of exactly 0.0). All the rest is proved. C24_exact says exactly when ValueError is raised.  
Theorems: `C24_unique_per_call_partial` (Prop_Choice.v), `C24_value_error_iff_refuted` (Prop_Choice.v), `C24_exact` (Prop_ExactMath.v)

**C25. Uniqueness bookkeeping is exact** (proved)  
As C23 with the uniqueness counters.  
Theorems: `C25_bookkeeping` (Prop_Choice.v), `C25_no_repeats` (Prop_Choice.v)

**C26. weights and cum_weights stay consistent** (partial)  
Setter functions, exact and double instances.  
Proved with exact weights. With doubles the running sums of the weights computed from cum_weights can differ from cum_weights by rounding (witness). C26_assignment holds for doubles.  
Theorems: `C26_consistent` (Prop_Choice.v), `C26_assignment` (Prop_Choice.v), `C26_doubles_refuted` (Prop_Choice.v)

**C27. replace and replace_only_after_call never contradict each other** (proved)  
Invariant of all histories.  
Theorems: `C27_no_contradiction` (Prop_Choice.v)

**C28. Seeding a Choice is equivalent to constructing it with that seed** (proved)  
Equality of states after construction and after seed.  
Theorems: `C28_seed_is_construction` (Prop_Choice.v)

**C29. How calls are batched does not change what is emitted** (proved)  
Induction on the list of requests, equality of concatenated results.  
Theorems: `C29_batching_choice` (Prop_Choice.v), `C29_batching_fixed` (Prop_Fixed.v)

**C30. chance(p) is certain at the extremes** (partial)  
The two weights made by `chance`; exact and double instances.  
Proved for every p in exact arithmetic. For doubles it is false for huge p, where the weights cancel and every call raises ValueError; C30_exact: it does what the property says for every other finite p. C30_cancels: none between -2^53 and 2^53 cancel, all beyond 2^54 do.  
Theorems: `C30_chance` (Prop_Choice.v), `C30_chance_doubles` (Prop_Choice.v), `C30_any_p_refuted` (Prop_Choice.v), `C30_exact` (Prop_Chance.v), `C30_cancels` (Prop_Chance.v)

**C31. poisson_choice and gaussian_choice respect weight_floor** (proved)  
Weights after the floor.  
Theorems: `C31_weight_floor` (Prop_Choice.v)

**C32. Sequential repeats its items forever** (proved)  
Induction on the number of values.  
Theorems: `C32_repeats_forever` (Prop_Fixed.v), `C32_construction` (Prop_Fixed.v), `C32_replaced_factory` (Prop_Fixed.v), `C32_assignments` (Prop_FixedSet.v), `C32_flag` (Prop_FixedSet.v)

**C33. Iterative emits the successive iterators of its factory back to back** (proved)  
Streams of iterators; induction on requests.  
An iterator's elements are fixed when the factory returns it.  
Theorems: `C33_empty_refused` (Prop_Fixed.v), `C33_back_to_back` (Prop_Fixed.v), `C33_no_hang` (Prop_Fixed.v), `C33_assignments` (Prop_FixedSet.v), `C33_flag` (Prop_FixedSet.v)

**C34. Calling an emitter with a number returns a list of exactly that many values** (partial)  
Hoare triples over the heap model: an invariant of programs that never ask for a negative number, and the count of values by induction on fuel.  
False as stated: a Text may return fewer texts when a number of words is 0, and negative sizes corrupt Choices without replacement (refuted with a reachable state). Proved for all states reached by programs that never ask for a negative number, whose word lengths and repeat counts are not negative and whose numbers of words are positive: em(n) returns n values, em() one.  
Theorems: `C34_count_partial` (Prop_Count.v), `C34_single_partial` (Prop_Count.v), `C34_count_refuted` (Prop_Count.v)

**C35. make_alphabet contains exactly the characters of the inclusive ranges** (proved)  
Lists of code points.  
Theorems: `C35_contents` (Prop_Text.v), `C35_errors` (Prop_Text.v), `C35_default` (Prop_Text.v)

**C36. Word emits words of the requested lengths over the alphabet** (proved)  
Children given by what calling them does; words checked against the drawn lengths.  
For any child emitters, given by what calling them does.  
Theorems: `C36_word` (Prop_Text.v), `C36_words` (Prop_Text.v), `C36_object` (Prop_Calls.v)

**C37. Text emits the drawn words in order, joined by separators** (proved)  
As C36.  
For any child emitters that return as many values as asked for; texts of at least one word each (see C38 for 0).  
Theorems: `C37_texts` (Prop_Text.v), `C37_within` (Prop_Text.v), `C37_object` (Prop_Calls.v)

**C38. Text(n) returns n texts** (partial)  
As C36.  
False of the code when a number of words is 0: refuted; proved for numbers of words of at least 1, and the count in general.  
Theorems: `C38_count_partial` (Prop_Text.v), `C38_positive_partial` (Prop_Text.v), `C38_zero_fails` (Prop_Text.v), `C38_refuted` (Prop_Text.v)

**C39. num_unique_values of Word and Text is an upper bound** (proved)  
Counting words over an alphabet.  
Where num_unique_values is an integer.  
Theorems: `C39_word` (Prop_Text.v), `C39_text` (Prop_Text.v)

**C40. WrapOne applies the wrapper to each source value** (proved)  
Sources given by what calling them does.  
Theorems: `C40_wrapone` (Prop_Wrap.v), `C40_wrapone_succeeds` (Prop_Wrap.v), `C40_errors` (Prop_Wrap.v), `C40_object` (Prop_Calls.v)

**C41. WrapMany combines the i-th values of all sources** (proved)  
As C40.  
Theorems: `C41_emit` (Prop_Wrap.v), `C41_emit_many` (Prop_Wrap.v), `C41_object` (Prop_Calls.v)

**C42. A wrapper accepted at assignment never fails with a signature error later** (partial)  
Binding of arguments proved stable between mock call and real calls.  
Proved in full for WrapOne. False of the code for WrapMany and BasedOnFields when a source is labelled 'rng' and the function takes an rng: refuted; proved otherwise.  
Theorems: `C42_wrapone` (Prop_Wrap.v), `C42_wrapmany_partial` (Prop_Wrap.v), `C42_rng_label_fails` (Prop_Wrap.v), `C42_wrapmany_refuted` (Prop_Wrap.v), `C42_based_partial` (Prop_Wrap.v), `C42_wrapone_object` (Prop_Calls.v), `C42_wrapmany_object` (Prop_Calls.v)

**C43. Creating a wrapper emitter does not consume source values** (proved)  
Heap model; the mock call of the constructor followed by reset is a frame-preserving step, on every reachable state.  
For every reachable state. Fresh means: the state of a reset, with the wrapper's seed.  
Theorems: `C43_wrapone` (Prop_Construct.v), `C43_wrapmany` (Prop_Construct.v), `C43_set` (Prop_Construct.v), `C43_unconsumed` (Prop_Construct.v)

**C44. Creating a BasedOnFields emitter does not disturb its source fields** (partial)  
As C43.  
False of the code: constructing BasedOnFields calls the source fields. Proved: for all that exists it is exactly as if each source field had been called once.  
Theorems: `C44_construct_partial` (Prop_Construct.v), `C44_construct_refuted` (Prop_Construct.v)

**C45. Field.previous is always the last value the field returned** (proved)  
Invariant over histories of heap operations, exceptions included.  
For every program of constructions, assignments, calls, resets, seedings and documents, with exceptions at any point.  
Theorems: `C45_program` (Prop_Programs.v), `C45_previous` (Prop_Previous.v), `C45_new` (Prop_Previous.v)

**C46. The gate decides whether a field emits, and a closed gate touches nothing else** (proved)  
Frame property of a closed gate.  
Theorems: `C46_closed` (Prop_Field.v), `C46_open` (Prop_Field.v), `C46_gate` (Prop_Previous.v), `C46_object` (Prop_Calls.v)

**C47. Multi-valued fields emit lists of the repeat count, single-valued fields emit single values** (proved)  
Count and type of a field value.  
Theorems: `C47_count` (Prop_Field.v), `C47_multi_valued` (Prop_Field.v), `C47_object` (Prop_Calls.v)

**C48. A schema call produces exactly the public fields, in order, calling every field once** (proved)  
Trace of calls and keys of the document.  
Theorems: `C48_schema` (Prop_Field.v), `C48_keys` (Prop_Field.v), `C48_errors` (Prop_Field.v), `C48_document` (Prop_Previous.v)

**C49. Adding fields preserves order and replaces by name** (proved)  
Insertion-ordered dictionary.  
Theorems: `C49_order` (Prop_Field.v), `C49_fields` (Prop_Field.v), `C49_distinct` (Prop_Field.v), `C49_set` (Prop_Field.v), `C49_partition` (Prop_Field.v)

**C50. CopyFields reproduces what its source fields last emitted** (proved)  
Flattening of previous values.  
Theorems: `C50_single` (Prop_Field.v), `C50_flattened` (Prop_Field.v), `C50_joined` (Prop_Field.v), `C50_many` (Prop_Field.v), `C50_object` (Prop_Calls.v)

**C51. In a document, a copying field placed after its source agrees with the source** (partial)  
C45 and C50 combined within one schema call.  
False of the code for a source field that has emitted the empty list (the copy has None): refuted; proved for single-valued source fields and non-empty lists. C51_exact gives the value of the copy in every case, and exactly when it is that of the field.  
Theorems: `C51_copy_partial` (Prop_Previous.v), `C51_copy_refuted` (Prop_Previous.v), `C51_exact` (Prop_Previous.v)

**C52. Resetting a seeded schema replays the same documents** (proved)  
Simulation: two heaps that agree on the reachable emitters stay in agreement; reset of a seeded schema establishes agreement.  
For wrapper functions that are pure but for their use of the rng, and factories that give the same iterator at every call.  
Theorems: `C52_replay` (Prop_World.v)

**C53. A seed given to an emitter is honoured when it is used in a field** (partial)  
Fresh states after construction and after the seeding done by a field.  
False of the code: a field without a seed overwrites the seeds of its emitters with None. Proved for a field given the same seed.  
Theorems: `C53_same_seed_partial` (Prop_Construct.v), `C53_own_seed_refuted` (Prop_Construct.v), `new_choice_fresh` (Prop_Construct.v), `new_word_fresh` (Prop_Construct.v), `new_text_fresh` (Prop_Construct.v)

**C54. Fields that share no emitter do not influence each other** (proved)  
Frame property over interleavings of histories.  
For any two sets of fields, and any interleaving of operations.  
Theorems: `C54_independent` (Prop_World.v)

**C55. Group operations reach every member that supports them and skip the others** (proved)  
Lists of abstract members.  
Theorems: `C55_do_method` (Prop_Group.v), `C55_reaches_everyone` (Prop_Group.v), `C55_setattr` (Prop_Group.v)

**C56. Deprecated attributes resolve and warn, others raise AttributeError** (proved)  
Registries as association lists.  
Theorems: `C56_deprecated` (Prop_Group.v), `C56_attribute_error_iff` (Prop_Group.v), `C56_package_names` (Prop_Group.v)

**C57. The stop attribute of a range is its next term** (proved)  
The stop attribute as start + length * step.  
Theorems: `C57_stop_attribute` (Prop_Dt.v)

**C59. Asking for a negative number of values is harmless** (partial)  
Frame property for requests of n <= 0 values.  
False as stated: a negative number given to a Choice without replacement (and hence to anything built on one) changes its next values (refuted with a reachable state). Proved: for compositions of Static, Iterative/Sequential without reset_after_call, Choice with replacement, CopyFields, Word, WrapOne and WrapMany, n <= 0 yields no value and changes nothing; n = 0 does so too for Choice without replacement and Text (C59_zero), but BasedOnFields calls its action even then (C59_zero_refuted).  
Theorems: `C59_negative_refuted` (Prop_Number.v), `C59_nothing_partial` (Prop_Number.v), `C59_zero` (Prop_Number.v), `C59_zero_refuted` (Prop_Number.v)

**C60. A rejected wrapper function leaves the emitter unchanged** (partial)  
Frame property of the setters.  
False as stated: the setters install the refused function all the same (refuted). Proved: whether accepted or refused, only the wrapper and its own parts change. C60_exact says exactly when the function is installed.  
Theorems: `C60_rejected_refuted` (Prop_Construct.v), `C60_confined_partial` (Prop_Construct.v), `C60_exact` (Prop_Installed.v)

**C61. BasedOnFields is functionally equivalent to wrapping CopyFields** (partial)  
Equality of results of two emitters on the same field state.  
False of the code for functions that use the rng, called for several values: refuted.  
Theorems: `C61_one` (Prop_Field.v), `C61_many_partial` (Prop_Field.v), `C61_refuted` (Prop_Field.v), `C61_object` (Prop_Calls.v)

**C64. Emitters are never part of themselves** (proved)  
Invariant of programs: children are older than parents; depth bounds the fuel needed.  
For every program made of constructors, assignments and operations, with exceptions at any point.  
Theorems: `reachable_sound` (BuildProofs.v), `depth_enough` (Prop_Construct.v)

**C58. A range never changes** (proved)  
`DtObject.v`: the instance dictionary, setters and lazily set attributes; invariant of histories of uses (caches are empty or right).  
The last theorem connects the object with the functions of DtModel.v that C01-C13 and C57 speak of.  
Theorems: `C58_never_changes` (Prop_DtObject.v), `C58_read_only` (Prop_DtObject.v), `C58_same_as_functions` (Prop_DtObject.v)

**C62. A range can be given any length that int() accepts** (partial)  
The setters and `__init__` for values of all types.  
False of the code: a length such as '3' passes the setter, then range(0, length) raises TypeError. Proved for integers.  
Theorems: `C62_length_partial` (Prop_DtObject.v), `C62_length_refuted` (Prop_DtObject.v)

**C63. reversed() of a range yields its elements in reverse** (proved)  
`Sequence.__reversed__` on the object model.  
Theorems: `C63_reversed` (Prop_DtObject.v)

**C65. A program that seeds everything shows the same in every run** (proved)  
Programs (ProgramSpec) run on heaps that start with different entropy; two heaps that are equal but for the entropy ahead stay so (strict agreement), command by command.  
For every program, with exceptions at any point; the rng of a seed is a function of the seed.  
Theorems: `C65_reproducible` (Prop_Runs.v)

**C66. After seed_fields and reset_fields, a schema depends only on how it was built** (proved)  
The same constructors and settings give heaps with the same configuration (related two-run logic `both`); seed_fields and reset_fields then establish the agreement of C52.  
Computing a score (log of a random number divided by a weight) is assumed not to raise AttributeError.  
Theorems: `C66_same_schema` (Prop_Runs.v)

**C67. Settings stay until they are assigned, and assignments mean what they say** (proved)  
Settings of the objects of a heap (ObjectSpec.settings); a relation between heaps that every command keeps, except for the object it assigns to.  
For every program, with exceptions at any point.  
Theorems: `C67_kept` (Prop_Objects.v), `C67_kept_field` (Prop_Objects.v), `C67_assigned` (Prop_Objects.v), `C67_assigned_field` (Prop_Objects.v)

**C68. A new object has the settings given to its constructor, and the documented defaults** (proved)  
The settings of a new object are computed from the arguments of its constructor; the reset at the end of a constructor keeps them (C67).  
For constructors that succeed, whatever has been done before. An empty list of weights counts as none, as in the code.  
Theorems: `C68_static` (Prop_Objects.v), `C68_iterative` (Prop_Objects.v), `C68_sequential` (Prop_Objects.v), `C68_choice` (Prop_Objects.v), `C68_word` (Prop_Objects.v), `C68_text` (Prop_Objects.v), `C68_wrapone` (Prop_Objects.v), `C68_wrapmany` (Prop_Objects.v), `C68_basedonfields` (Prop_Objects.v), `C68_copyfields` (Prop_Objects.v), `C68_field` (Prop_Objects.v)

**C69. An emitter that is part of others behaves as if it were used on its own** (proved)  
Relation "every emitter has changed by steps of its own class only", kept by all operations; then induction over programs.  
For every reachable state; the other emitters have no state but seed and rng.  
Theorems: `C69_steps` (Prop_Objects.v), `C69_alone` (Prop_Objects.v)

**C70. Every value an emitter emits is one its settings allow** (partial)  
Inductive relation "can emit" on the settings (EmitSpec.v); induction over the emitters from oldest to newest with C36, C37, C40, C41, C50, C61 for objects, C69 for the leaves; calls and resets change no settings, so values of later calls in a batch are allowed by the settings at its start. The refutations are programs with a negative length and a negative request.  
For programs that ask for no negative number and whose length, numwords and repeat emitters give integers not negative (positive for numwords), see orderly in CountSpec.v. For all programs it is false of the code: a negative length makes the words of a batch too long or too short, and a Choice without replacement asked for -1 values gives too few letters afterwards (both refuted with reachable states).  
Theorems: `C70_emit_partial` (Prop_Emits.v), `C70_emit_many_partial` (Prop_Emits.v), `C70_refuted` (Prop_Emits.v), `C70_single_refuted` (Prop_Emits.v)

**C71. num_unique_values of words and texts bounds the number of different values ever given** (partial)  
Invariant of programs (CacheProofs.v, Prop_Unique.v): what a Word or Text has stored is the number of ways to put it together from its current settings, for all objects to whose parts nothing is assigned; then all values it can emit (C70) are in one list of at most that length. The refutation is a program with an assignment to the length emitter.  
For programs as in C70 (orderly), without assignments to the parts. With such assignments it is false of the code: the number is calculated once (C71_once), refuted with Word(Static(1), Static('a')) whose length becomes 3. Computing a score is assumed not to raise AttributeError.  
Theorems: `C71_bound_partial` (Prop_Unique.v), `C71_once` (Prop_Unique.v), `C71_bound_refuted` (Prop_Unique.v)

**C72. No command of a program hangs** (proved)  
Non-termination is the outcome Diverge (out of rounds). Triples over all operations of World.v (EndProofs.v): objects keep their class and parts, every Choice has acceptable weights and few enough items, every iterator factory is productive, every function returns; none of these runs ends in Diverge. Emission, reset and seeding recurse on objects that are older (reachable_sound). The loop of weighted_shuffle ends by C16_never_loops, the loop over batches of words because each batch takes at least one from what remains. C72_iterators_matter shows that the condition on iterators cannot be dropped.  
For every arithmetic that satisfies wlaws (NumLaws.v) and for doubles. The loops are bounded by any number that exceeds the number of items of each Choice and the number of empty iterators in a row (harmless in EndSpec.v).  
Theorems: `C72_ends` (Prop_Ends.v), `C72_ends_doubles` (Prop_Ends.v), `C72_iterators_matter` (Prop_Ends.v)

**C73. Seeding alone is enough to replay what has no position** (proved)  
WorldSeed.v: induction over the nesting of eseed (the model of seed), with the invariant step of WorldReset.v; emitters without an rng are skipped by do_method and are leaves. Two states in which all parts are fresh with the same seed agree (Agree.v), so every history has the same outcomes. Refutations by concrete schemas.  
Computing a score is assumed not to raise AttributeError. The fields read by the emitter must show the same previous value and rng_seed. The two _refuted theorems show that the conditions in the statement are needed.  
Theorems: `C73_reaches` (Prop_Seed.v), `C73_emitter` (Prop_Seed.v), `C73_as_reset` (Prop_Seed.v), `C73_schema` (Prop_Seed.v), `C73_positions_refuted` (Prop_Seed.v), `C73_values_refuted` (Prop_Seed.v)

**C74. Ranges of datetimes with time zones** (proved)  
`DtZone.v` is dtrange.py again for values with tzinfo and fold; the zone is an arbitrary function. C74_naive: on naive values it is DtModel.v. The number of elements is a quotient rounded up, in clock time or in UTC.  
DtZone.v. Offsets are whole seconds and utcoffset is a function. The _refuted theorems are the last sentences of the statement.  
Theorems: `C74_naive` (Prop_Zone.v), `C74_same_zone` (Prop_Zone.v), `C74_same_zone_obtained` (Prop_Zone.v), `C74_two_zones` (Prop_Zone.v), `C74_membership` (Prop_Zone.v), `C74_membership_same` (Prop_Zone.v), `C74_mixed` (Prop_Zone.v), `C74_any_zones_refuted` (Prop_Zone.v), `C74_any_member_refuted` (Prop_Zone.v)

**C75. Ranges of times lose the time zone** (proved)  
By computation on the model of _index_to_value, for all arguments; the number of elements by case analysis on the models of _value_to_index and dtrange.  
A finding: _index_to_value returns datetime.time(), which drops tzinfo. C75_zone_refuted is what a user would expect (elements have the tzinfo of start), refuted.  
Theorems: `C75_naive_elements` (Prop_Zone.v), `C75_no_element_inside` (Prop_Zone.v), `C75_zone_refuted` (Prop_Zone.v), `C75_length` (Prop_Zone.v)

**C76. Equality and hashing of ranges with time zones** (proved)  
Case analysis over the comparison of datetimes (PEP 495), for all zones.  
The last two are the last part of the statement.  
Theorems: `C76_hash` (Prop_Zone.v), `C76_elements` (Prop_Zone.v), `C76_elements_refuted` (Prop_Zone.v), `C76_elements_datetimes_refuted` (Prop_Zone.v)

**C77. A fractional step of dtrange is a whole number of microseconds, exact whenever the step is** (proved)  
The conversion of a float by timedelta (CPython, _datetimemodule.c) is modelled with Flocq doubles, rounding included. Error analysis: modf is exact, one product below 2^40 is rounded, the leftover is rounded half to even; then dtrange with a float is rewritten to dtrange with microseconds, and C01 applies.  
The refuted ones are consequences one might expect: elements drift away from the multiples of the step, the number of elements is not the distance divided by the step, a positive step can vanish.  
Theorems: `C77_float_step` (Prop_Step.v), `C77_elements` (Prop_Step.v), `C77_other_steps` (Prop_Step.v), `C77_terms_refuted` (Prop_Step.v), `C77_count_refuted` (Prop_Step.v), `C77_positive_refuted` (Prop_Step.v)

**C78. Groups of objects are lists** (partial)  
`GroupList.v`: groups over the methods of UserList, members being objects, lists or groups. Iteration by index (Sequence.__iter__) by induction on fuel; refutations by a group of two.  
False of the code for slices, sums, multiples and copies of an ObjectGroup (C78_refuted): they always have exactly one member, a list or the group, and methods called through them reach nobody. The rest is proved. The copy of a single-valued source group is not single-valued (C78_copy_refuted).  
Theorems: `C78_iterates` (Prop_GroupList.v), `C78_insert` (Prop_GroupList.v), `C78_pop` (Prop_GroupList.v), `C78_live` (Prop_GroupList.v), `C78_source` (Prop_GroupList.v), `C78_refuted` (Prop_GroupList.v), `C78_one_member` (Prop_GroupList.v), `C78_reaches_nobody` (Prop_GroupList.v), `C78_copy_refuted` (Prop_GroupList.v)

**C79. A wrapper that is handed on is bound anew** (partial)  
`BindModel.v`: BoundWrappers as objects in a heap; programs of eight commands. Invariant: functions of wrappers are no wrappers, and the wrapper of an emitter is bound to it.  
Proved for programs that hand wrappers on through set_wrapper_function, set_action_function and constructors, and may do all else. False when a program assigns the wrapper of one emitter as the wrapper of another, or as the function of another wrapper: the emitter then draws from the generator of the other (both refuted).  
Theorems: `C79_own_generator_partial` (Prop_Bind.v), `C79_given` (Prop_Bind.v), `C79_handed_on` (Prop_Bind.v), `C79_apart` (Prop_Bind.v), `C79_assigned_refuted` (Prop_Bind.v), `C79_nested_refuted` (Prop_Bind.v)

**C80. Ranges of datetimes in one time zone work like ranges of naive datetimes** (partial)  
Simulation: the operations of `DtZone.v` commute with putting in the zone, so the theorems on naive ranges carry over.  
All operations are those of naive ranges, for all zones and folds (C80_as_naive, C80_slicing). The last sentence is false for zones whose offset changes: elements are a step apart on the clock, not in time, and the first element has fold 0 even if start has fold 1, so it can be an hour before start (both refuted). C80_first and C80_spacing_partial say when it holds.  
Theorems: `C80_as_naive` (Prop_ZoneSame.v), `C80_slicing` (Prop_ZoneSame.v), `C80_first` (Prop_ZoneSame.v), `C80_spacing_partial` (Prop_ZoneSame.v), `C80_first_refuted` (Prop_ZoneSame.v), `C80_spacing_refuted` (Prop_ZoneSame.v)

**C81. weighted_shuffle draws one by one in proportion to the weights** (proved)  
A generator is the list of its random numbers; a probability is the iterated integral (Coquelicot) of the indicator of the event. Few items: induction over the rounds of the rejection loop, one variable at a time; a repeated position contributes the same integral again. Many items: the scores are in the wanted order on a region cut out by powers, integrated variable by variable.  
With real numbers instead of doubles (RealNum.v), so rounding is left out. Integrals are iterated, in the order given in the statement. Items with weight 0 may occur in C81_few but not be returned; in C81_many a weight of 0 is a ZeroDivisionError (C17). At most 2^46 items.  
Theorems: `C81_few` (Prop_Prob.v), `C81_many` (Prop_Prob.v), `C81_first_sum` (Prop_Prob.v), `C81_positions` (Prop_Prob.v)

**C82. Choice emits items with the probabilities that its weights give** (proved)  
Reduction to C81 and to the intervals on which one random number picks an item.  
As C81. For the first call after construction with a seed. Where random.choice and random.sample decide (no weights), their random integers are taken as floor(random() * n), and sample as its branch with a pool; see RealNum.v.  
Theorems: `C82_without_replacement` (Prop_Prob.v), `C82_arrangements` (Prop_Prob.v), `C82_with_replacement` (Prop_Prob.v), `C82_uniform` (Prop_Prob.v), `C82_after_call_few` (Prop_Prob.v), `C82_after_call_many` (Prop_Prob.v), `C82_after_call_arrangements` (Prop_Prob.v), `C82_chance` (Prop_Prob.v), `C82_distribution` (Prop_Prob.v)

**C83. Successive calls of a Choice are independent, or go on drawing from what is left** (proved)  
Induction over the calls: each takes its numbers from the front of the list of random numbers, or its values from the shuffled items; then C82.  
As C82. Without replacement, while items are left.  
Theorems: `C83_with_replacement` (Prop_ProbCalls.v), `C83_uniform` (Prop_ProbCalls.v), `C83_without_replacement` (Prop_ProbCalls.v)

**C84. Objects set up alike and given the same seed do the same, wherever they are** (proved)  
Relation between two heaps up to renaming of objects (TwinSpec.v), preserved by every operation (Twin.v).  
Whichever objects take the place of which is given by two functions on identities. User factories must give the same iterator at each call (pure_factories), as in C52.  
Theorems: `C84_schemas` (Prop_Twin.v), `C84_emitters` (Prop_Twin.v)

**C85. Fields of a schema that is seeded as a whole vary independently of each other** (partial)  
Refuted with a witness; C84 within one heap, and C54 for what a document shows of one field.  
Refuted: all fields of a schema get the same seed. What holds instead: fields that are set up alike and share nothing have the same value in every document.  
Theorems: `C85_fields_vary_refuted` (Prop_Twin.v), `C85_equal_fields` (Prop_Twin.v)

**C86. What a seeded Word or Field gives is what its parts give, each given the same seed alone** (proved)  
Each part agrees (Histories.v) with itself in its own program; one call of the whole is one call of each part, and leaves the others alone.  
Outcomes of any number of calls, exceptions included.  
Theorems: `C86_word` (Prop_Parts.v), `C86_field` (Prop_Parts.v)

**C87. In a seeded field, whether there is a value and which value it is are decided independently** (partial)  
Seeding makes every part fresh; the first draw of a fresh weighted Choice is a function of the first random number. The probability is an integral of a step function.  
Refuted with real numbers as random numbers. What holds instead: gate and first value use one and the same random number (any numbers, any generator); the probability of each item (real numbers); the second of two equal items is never first with chance(p), p up to 1/2 (exact numbers, any generator).  
Theorems: `C87_product_refuted` (Prop_GateProb.v), `C87_same_draw` (Prop_Gate.v), `C87_probability` (Prop_GateProb.v), `C87_never` (Prop_Gate.v)

**C88. The deprecated Wrap class gives the same as WrapMany** (proved)  
`Prop_OldWrap.v` models the constructor of Wrap. Both constructors leave emitters of the same configuration in the state of a reset, and such emitters do the same.  
Theorems: `C88_same` (Prop_OldWrap.v), `C88_fresh` (Prop_OldWrap.v), `C88_assign` (Prop_OldWrap.v)

**C89. Emitter classes written by users** (proved)  
The heap of `World.v` has objects of user classes, given by what emit, emit_many and reset do to the attributes and the generator. `Prop_User.v`: induction over the calls; for schemas, the reset of everything seeded.  
The condition on reset is needed: C89_replay_any_refuted. The classes have no child emitters and call no other objects.  
Theorems: `C89_calls` (Prop_User.v), `C89_calls_plain` (Prop_User.v), `C89_reset` (Prop_User.v), `C89_seed` (Prop_User.v), `C89_seed_plain` (Prop_User.v), `C89_new` (Prop_User.v), `C89_schema` (Prop_User.v), `C89_replay_any_refuted` (Prop_User.v)

**C90. Iterative reads any factory's iterators to the end, one after the other** (proved)  
`IterModel.v`: factories and iterators as any partial functions of a state of the user. `IterSpec.v` says by an inductive relation what reading on gives; equivalence by induction on the relation and on the fuel. The iterators of `FixedModel.v` are proved to be a special case (simulation).  
Factories and iterators are any partial functions of a state of the user. The last two theorems: the model used for the other properties of Iterative is a special case.  
Theorems: `C90_emit` (Prop_Iter.v), `C90_emit_many` (Prop_Iter.v), `C90_negative` (Prop_Iter.v), `C90_batches` (Prop_Iter.v), `C90_fixed_new` (Prop_Iter.v), `C90_fixed_calls` (Prop_Iter.v)

**C91. Iterative survives an exception of the user's iterator** (partial)  
As C90, with a relation for the exceptions; refuted by a generator function that raises an exception after two values.  
False of the code: after the exception the emitter is finished until reset(): emit raises StopIteration and emit_many(n) returns an empty list (C91_goes_on_refuted). Proved: exactly when which exception is raised, all that a finished emitter does, and that reset revives it.  
Theorems: `C91_raises` (Prop_Iter.v), `C91_raises_many` (Prop_Iter.v), `C91_no_stop_iteration` (Prop_Iter.v), `C91_finished` (Prop_Iter.v), `C91_stays_finished` (Prop_Iter.v), `C91_reset` (Prop_Iter.v), `C91_goes_on_refuted` (Prop_Iter.v)

**C92. An accepted factory never makes Iterative loop for ever** (partial)  
The infinite runs are a coinductive predicate; equivalent to running out of every fuel. Refuted by a factory that returns one and the same iterator.  
False of the code for factories that hand out an iterator again (C92_accepted_refuted). Proved: exactly when emit goes on for ever; never, if every iterator is not empty when handed out; what the check does.  
Theorems: `C92_hangs` (Prop_Iter.v), `C92_never` (Prop_Iter.v), `C92_new` (Prop_Iter.v), `C92_set` (Prop_Iter.v), `C92_refused` (Prop_Iter.v), `C92_accepted_refuted` (Prop_Iter.v)

**C93. Sequential follows changes of the list it was given** (proved)  
List iterators as positions on a heap, the list changed at will between calls; induction over the history.  
Theorems: `C93_live` (Prop_Iter.v), `C93_new` (Prop_Iter.v), `C93_emptied` (Prop_Iter.v)

**C94. A Choice with replacement follows changes of its list** (partial)  
`LiveSpec.v`: histories of changes of the list and calls, compared with a new Choice at each call. Calls are shown not to depend on the stored number of items where it is large enough; induction over the history.  
False of the code with replace_only_after_call when the list has grown (C94_grown_refuted): the number of items is taken once, at construction. C94_follows says when it holds (fits in LiveSpec.v), the others what happens otherwise: weights and another length give ValueError, an emptied list IndexError, more values than the first length ValueError, and reset() changes nothing about it.  
Theorems: `C94_follows` (Prop_Live.v), `C94_weights_stay` (Prop_Live.v), `C94_one_item` (Prop_Live.v), `C94_emptied` (Prop_Live.v), `C94_first_length` (Prop_Live.v), `C94_reset` (Prop_Live.v), `C94_grown_refuted` (Prop_Live.v)

**C95. A Choice without replacement keeps to the items it has shuffled until reset** (proved)  
As C94: calls are shown not to read the items; induction over the history, and the settings stay as constructed.  
The generator is restarted by reset() even if it then fails.  
Theorems: `C95_unseen` (Prop_Live.v), `C95_reset` (Prop_Live.v), `C95_reset_refused` (Prop_Live.v)

**C96. The mixins work together in any order that puts them before what stops reset** (proved)  
`MroModel.v`: class statements and C3, the bodies of reset and seed as statements around a call of the next class, instances as the attributes they have and the statements they ran. C3 is shown to keep the orders of all ancestors; induction along the order for the calls and for `__init__`; the attributes set so far are the invariant.  
C96_refuted: without the condition on the order the claim is false (Emitter listed first). The __init__ methods of the concrete classes (Choice, Word, ...) are not part of this model; they are in the others.  
Theorems: `C96_reset` (Prop_Mro.v), `C96_reset_children` (Prop_Mro.v), `C96_construct` (Prop_Mro.v), `C96_keywords` (Prop_Mro.v), `C96_exact` (Prop_Mro.v), `C96_own_late` (Prop_Mro.v), `C96_refuted` (Prop_Mro.v)

**C97. A class derived from a library class inherits all that its reset and seed do** (proved)  
The bodies a call gets to along a longer order include those along a shorter one (induction over the subsequence). C3 fails only when it is stuck, and then no order exists. The links to `World.v` and `ChoiceModel.v` by unfolding the chain.  
C97_refuted: without the condition the claim is false (Sequential listed before Choice). The last four say that the models of reset and seed used elsewhere are what the class statements give.  
Theorems: `C97_order` (Prop_Inherit.v), `C97_rejected` (Prop_Inherit.v), `C97_reset` (Prop_Inherit.v), `C97_seed` (Prop_Inherit.v), `C97_refuted` (Prop_Inherit.v), `C97_world_reset` (Prop_Inherit.v), `C97_world_seed` (Prop_Inherit.v), `C97_choice` (Prop_Inherit.v), `C97_field` (Prop_Inherit.v)

**C98. rng_seed is what was given or assigned last, and decides what happens after a reset** (proved)  
A relation between states (same rng_seed outside a set of emitters and a set of fields) kept by every operation, by induction over the depth (`SeedKeep.v`); for each command the sets are the ones of the property. Replay from the states after the reset, as in C52.  
C98_direct_refuted: it is not only changed directly or by seed(), as the docstring of RandomMixin says: being made part of a Word, wrapper or Field changes it, and so does a reset of these. The resets that replay are those that succeed, with a seed that is not None.  
Theorems: `C98_kept` (Prop_RngSeed.v), `C98_kept_field` (Prop_RngSeed.v), `C98_program` (Prop_RngSeed.v), `C98_program_field` (Prop_RngSeed.v), `C98_assigned` (Prop_RngSeed.v), `C98_assigned_field` (Prop_RngSeed.v), `C98_new_choice` (Prop_RngSeed.v), `C98_new_word` (Prop_RngSeed.v), `C98_new_text` (Prop_RngSeed.v), `C98_new_wrapone` (Prop_RngSeed.v), `C98_new_wrapmany` (Prop_RngSeed.v), `C98_new_based` (Prop_RngSeed.v), `C98_new_field` (Prop_RngSeed.v), `C98_reset` (Prop_RngSeed.v), `C98_reset_field` (Prop_RngSeed.v), `C98_replay` (Prop_RngSeed.v), `C98_replay_emitter` (Prop_RngSeed.v), `C98_direct_refuted` (Prop_RngSeed.v)

**C99. Children replaced through the emitters mapping are used from then on, and only they** (proved)  
A heap on which any emitter can be part of any other, so every method has a bound on the depth. Frame, reset and replay from the simulation of C52, which holds for every depth and every heap. A loop: no computation of a looping emitter returns, by induction over the bound. No loop: a path longer than the number of emitters repeats one of them, so the nesting is finite and the bound is immaterial.  
C99_count_refuted: num_unique_values does not follow the children. Labels that Word, Text and WrapOne do not use are not modelled.  
Theorems: `C99_assign` (Prop_Child.v), `C99_missing` (Prop_Child.v), `C99_restore` (Prop_Child.v), `C99_remove` (Prop_Child.v), `C99_part` (Prop_Child.v), `C99_reset` (Prop_Child.v), `C99_seed` (Prop_Child.v), `C99_left_alone` (Prop_Child.v), `C99_replay` (Prop_Child.v), `C99_loop_made` (Prop_Child.v), `C99_loop` (Prop_Child.v), `C99_no_loop` (Prop_Child.v), `C99_loop_or_not` (Prop_Child.v), `C99_word` (Prop_Child.v), `C99_wrapone` (Prop_Child.v), `C99_wrapmany` (Prop_Child.v), `C99_count_refuted` (Prop_Child.v)

**C100. In a seeded Word, the length of the first word and its letters are decided independently** (partial)  
Seeding a Word seeds both of its emitters (C86), so both start with the generator of the seed: the word is computed from its numbers, whatever they are. Probabilities: the first number decides length and first letter and is integrated over the common part of two shares of the unit interval, the others one by one as in C82. Refuted by lengths 1 and 2 with letters a and b.  
Refuted with real numbers as random numbers: lengths 1 and 2, letters a and b, equal weights, "b" has probability 0 instead of 1/4. What holds instead: the first word for every seed, in any arithmetic and with any generator; length and first letter tied together for equal weights; the probability of every word with one seed (real numbers); with seeds of their own the letters are independent of the length and the product is the probability.  
Theorems: `C100_statement_refuted` (Prop_SpellProb.v), `C100_same_draw` (Prop_Spell.v), `C100_first_letter` (Prop_Spell.v), `C100_tied` (Prop_Spell.v), `C100_probability` (Prop_SpellProb.v), `C100_apart` (Prop_Spell.v), `C100_apart_probability` (Prop_SpellProb.v)

**C101. Threads that share a Choice without replacement never get the same item** (partial)  
`ThreadModel.v`: a call is a sequence of steps, each one access to the shared emitter; a schedule says which thread makes its next step. Refuted by concrete schedules. For all schedules: an invariant kept by every step; for the number of successes a potential (what each thread may still bring about at the current value of the counter, counting lost updates) that no step increases. One at a time: a general theorem that calls which do not overlap have the outcomes of one thread, and C23.  
Refuted: two threads, four items, both get the same one. What holds instead, for every schedule: only items are returned, only ValueError and IndexError are raised, and the number of single values is bounded; with one call at a time every item is handed out once.  
Theorems: `C101_twice_refuted` (Prop_Thread.v), `C101_skips` (Prop_Thread.v), `C101_index_error` (Prop_Thread.v), `C101_values` (Prop_Thread.v), `C101_bound` (Prop_Thread.v), `C101_locked` (Prop_Thread.v)

**C102. Threads that share a Choice with replacement get together what one thread would get** (proved)  
The values already returned and those collected in unfinished calls are, as a multiset, the values of the random numbers drawn so far; kept by every step. One at a time: as in C101.  
Any number of threads and any schedule. Random.random is one step; Random.choice (one value, no weights) and Random.sample are one step each, so single values without weights are only in C102_locked.  
Theorems: `C102_pooled` (Prop_Thread.v), `C102_locked` (Prop_Thread.v)

**C103. Threads that share an Iterative or Sequential emitter get together the next values of its sequence** (partial)  
`ThreadIter.v`: generators with a flag saying that they run, and the position of each; entering, running to the next yield and leaving are steps. For all schedules: the values returned, in hand and lost are, as a multiset, those of one thread, kept by every step. One at a time: the general theorem of C101.  
Refuted: two threads, one call each, one fails with ValueError because the generator is running. What holds instead, for every schedule: nothing is given twice, failures are ValueErrors, nothing is lost with single values; with one call at a time everything is as in one thread, also with reset_after_call.  
Theorems: `C103_fails_refuted` (Prop_ThreadIter.v), `C103_lost` (Prop_ThreadIter.v), `C103_reset` (Prop_ThreadIter.v), `C103_nothing_twice` (Prop_ThreadIter.v), `C103_single` (Prop_ThreadIter.v), `C103_locked` (Prop_ThreadIter.v)

**C104. In every document a copy agrees with its source, also when threads share the schema** (partial)  
`ThreadField.v`: computing a value, writing _cache and reading it back are steps. For all schedules: any property of the values that emitters give is kept by every step. One at a time: the caches are the values of the document; the general theorem of C101.  
Refuted: two threads, a field that counts and a copy of it. What holds instead, for every schedule: the fields of the documents and where their values come from; with one call at a time the documents are those of one thread and copies agree. The emitters of a field are one step.  
Theorems: `C104_copies_refuted` (Prop_ThreadField.v), `C104_other_thread` (Prop_ThreadField.v), `C104_values` (Prop_ThreadField.v), `C104_locked` (Prop_ThreadField.v)

**C105. A call of a Choice that is interrupted has had its effect or none** (partial)  
`CutModel.v`: the steps of C101, and a call stops after any number of them. All stops of one call are enumerated (`cut_cases`); histories by induction: what has been emitted is part of what lies before _shuffled_index.  
Refuted for a call cut off between the updates of _shuffled_index and _num_unique_items. What holds instead, for every point: what is left behind and what later calls do, no item twice in any history, and that reset() repairs. C105_whole: the steps make up the call of ChoiceModel.v.  
Theorems: `C105_statement_refuted` (Prop_Cut.v), `C105_short` (Prop_Cut.v), `C105_points` (Prop_Cut.v), `C105_never_twice` (Prop_Cut.v), `C105_with_replacement` (Prop_Cut.v), `C105_reset` (Prop_Cut.v), `C105_whole` (Prop_Cut.v)

**C106. reset() puts a Choice right after an assignment that was interrupted** (partial)  
`CutModel.v`: each assignment to an attribute is a step; the generator may be in any state when weighted_shuffle is cut off. For each operation all stops are walked through; reset() depends on the settings only (`reset_depends`).  
Refuted three times over. What holds instead, for every point: for each operation, what has to be done to get the emitter that one gets when nothing is cut off. C106_whole: the steps make up the operations of ChoiceModel.v.  
Theorems: `C106_weights_refuted` (Prop_CutSet.v), `C106_number` (Prop_CutSet.v), `C106_contradiction` (Prop_CutSet.v), `C106_weights_again` (Prop_CutSet.v), `C106_seed_again` (Prop_CutSet.v), `C106_replace_again` (Prop_CutSet.v), `C106_after_again` (Prop_CutSet.v), `C106_whole` (Prop_CutSet.v)

**C107. Documents after a schema call that was interrupted** (partial)  
`Prop_CutSchema.v`: the steps of C104, and a call stops after any number of them. What is kept between fields is the number of caches only; two runs from states with the same emitters agree on the caches written so far.  
Refuted: two fields that count, the first call cut off between them. What holds instead, for every point: columns are shifted by no more rows than calls were cut off; copies agree in every document that is completed, and the emitters alone decide what comes. The emitters of a field are one step.  
Theorems: `C107_torn_refuted` (Prop_CutSchema.v), `C107_stays` (Prop_CutSchema.v), `C107_shift` (Prop_CutSchema.v), `C107_copies` (Prop_CutSchema.v), `C107_emitters_decide` (Prop_CutSchema.v)

**C108. An Iterative or Sequential emitter after a call that was interrupted** (partial)  
`CutIter.v` splits a call into steps: next() on the generator, in the generator one step for each element taken and each call of the factory, and the lines after. `Prop_CutIter.v`: an invariant says how many values are taken at each point; a number that falls with each step gives the end of the call. For reset: two generators over the same iterator at the same position give the same.  
Refuted: em(2) cut off in the generator; em(2) is then []. What holds instead: C108_points says for every point what is left, C108_finished what a finished generator gives, C108_reset that reset() repairs it. The iterators that the factory gives are not cut off inside next().  
Theorems: `C108_goes_on_refuted` (Prop_CutIter.v), `C108_whole` (Prop_CutIter.v), `C108_points` (Prop_CutIter.v), `C108_finished` (Prop_CutIter.v), `C108_reset` (Prop_CutIter.v)

**C109. A Sequential emitter whose assignment of iterator_factory was interrupted** (partial)  
`CutSeq.v` keeps apart the factory of the emitter and the one that its generator was made with. `Prop_CutSeq.v`: what the generator gives, by induction on the number of values; then each point of the assignment in turn. A relation with the emitter of `FixedModel.v` is kept by calls and whole assignments.  
Refuted: a second factory is assigned and cut off after the items are written. What holds instead is proved for every point. C109_whole: without interruptions the emitter is that of FixedModel.v. Factories give the same list each time.  
Theorems: `C109_items_refuted` (Prop_CutSeq.v), `C109_first` (Prop_CutSeq.v), `C109_later` (Prop_CutSeq.v), `C109_again` (Prop_CutSeq.v), `C109_whole` (Prop_CutSeq.v)

**C110. Static and Iterative emitters whose assignments were interrupted** (partial)  
`CutFixed.v`: the two writes of each setter. `Prop_CutFixed.v`: by induction on the history; for Iterative the invariant is that what is left of the current iterator is the end of the sequence that its generator goes through.  
Refuted by a Static emitter cut off after its value is written and by an Iterative one cut off before the reset. C110_static and C110_iterative say for every history what is emitted. Factories give the same list each time.  
Theorems: `C110_made_or_not_refuted` (Prop_CutFixed.v), `C110_static_refuted` (Prop_CutFixed.v), `C110_iterative_refuted` (Prop_CutFixed.v), `C110_static` (Prop_CutFixed.v), `C110_iterative` (Prop_CutFixed.v)

## 4. Trusted base

* Coq 8.16.1's kernel, including its virtual machine (`vm_compute` is used for
  concrete examples, witnesses and some case analyses).
* The correspondence between the Python text and the model: each definition
  cites the lines it models. It was checked by reading, not by execution.
* The models of what lies outside /repo: CPython `range` and slice arithmetic,
  `random.choices`/`choice`/`shuffle` built on `random()` and `randrange`,
  `datetime` arithmetic and its calendar limits, `inspect.Signature.bind` and
  Python's call rules, `str.join`, dictionaries as insertion-ordered lists,
  IEEE doubles (Flocq's definition).
* No axiom is added. No kernel check is switched off. Nothing is admitted. Four
  axioms of the standard library occur: `ClassicalDedekindReals.sig_forall_dec`
  and `sig_not_dec`, `FunctionalExtensionality.functional_extensionality_dep`
  and `Classical_Prop.classic`. They enter through `Coq.Reals` and Flocq's
  lemmas about doubles. (The gate also names Coq.Reals' sealed
  modules `RbaseSymbolsImpl` and `RinvImpl` and `ssrunder`, which are not axioms of a statement.)

### What `Print Assumptions` prints

"Closed under the global context" (382 theorems):

`C02_wrong_side_refuted`, `C03_getitem`, `C04_index_contains_count`, `C05_slicing_refuted`, `C06_equality_partial`, `C06_equal_same_elements_and_hash`, `C06_equality_refuted`, `C06_times_exact`, `C08_full_clock_refuted`, `C09_time_slicing_refuted`, `C10_time_membership_partial`, `C10_time_membership_refuted`, `C10_exact`, `C11_step_validation_refuted`, `C11_consequence_refuted`, `C11_how_near`, `C12_membership_total_partial`, `C12_membership_total_refuted`, `C12_exact`, `C13_argument_errors`, `C14_clamp`, `C15_weighted_shuffle`, `C16_terminates_partial`, `C16_terminates_refuted`, `C16_never_loops`, `C18_weighted_intervals`, `C21_up_to_170_partial`, `C21_overflow`, `C21_any_number_refuted`, `C22_own_items`, `C23_each_item_once`, `C23_negative_amount_repeats`, `C24_unique_per_call_partial`, `C24_value_error_iff_refuted`, `C25_bookkeeping`, `C25_no_repeats`, `C26_consistent`, `C26_assignment`, `C27_no_contradiction`, `C28_seed_is_construction`, `C29_batching_choice`, `C29_batching_fixed`, `C30_chance`, `C31_weight_floor`, `C32_repeats_forever`, `C32_construction`, `C32_replaced_factory`, `C32_assignments`, `C32_flag`, `C33_empty_refused`, `C33_back_to_back`, `C33_no_hang`, `C33_assignments`, `C33_flag`, `C34_count_partial`, `C34_single_partial`, `C34_count_refuted`, `C35_contents`, `C35_errors`, `C35_default`, `C36_word`, `C36_words`, `C36_object`, `C37_texts`, `C37_within`, `C37_object`, `C38_count_partial`, `C38_positive_partial`, `C38_zero_fails`, `C38_refuted`, `C39_word`, `C39_text`, `C40_wrapone`, `C40_wrapone_succeeds`, `C40_errors`, `C40_object`, `C41_emit`, `C41_emit_many`, `C41_object`, `C42_wrapone`, `C42_wrapmany_partial`, `C42_rng_label_fails`, `C42_wrapmany_refuted`, `C42_based_partial`, `C42_wrapone_object`, `C42_wrapmany_object`, `C43_wrapone`, `C43_wrapmany`, `C43_set`, `C43_unconsumed`, `C44_construct_partial`, `C44_construct_refuted`, `C45_program`, `C45_previous`, `C45_new`, `C46_closed`, `C46_open`, `C46_gate`, `C46_object`, `C47_count`, `C47_multi_valued`, `C47_object`, `C48_schema`, `C48_keys`, `C48_errors`, `C48_document`, `C49_order`, `C49_fields`, `C49_distinct`, `C49_set`, `C49_partition`, `C50_single`, `C50_flattened`, `C50_joined`, `C50_many`, `C50_object`, `C51_copy_partial`, `C51_copy_refuted`, `C51_exact`, `C52_replay`, `C53_same_seed_partial`, `C53_own_seed_refuted`, `new_choice_fresh`, `new_word_fresh`, `new_text_fresh`, `C54_independent`, `C55_do_method`, `C55_reaches_everyone`, `C55_setattr`, `C56_deprecated`, `C56_attribute_error_iff`, `C56_package_names`, `C59_negative_refuted`, `C59_nothing_partial`, `C59_zero`, `C59_zero_refuted`, `C60_rejected_refuted`, `C60_confined_partial`, `C60_exact`, `C61_one`, `C61_many_partial`, `C61_refuted`, `C61_object`, `reachable_sound`, `depth_enough`, `C58_never_changes`, `C58_read_only`, `C58_same_as_functions`, `C62_length_partial`, `C62_length_refuted`, `C63_reversed`, `C65_reproducible`, `C66_same_schema`, `C67_kept`, `C67_kept_field`, `C67_assigned`, `C67_assigned_field`, `C68_static`, `C68_iterative`, `C68_sequential`, `C68_choice`, `C68_word`, `C68_text`, `C68_wrapone`, `C68_wrapmany`, `C68_basedonfields`, `C68_copyfields`, `C68_field`, `C69_steps`, `C69_alone`, `C70_emit_partial`, `C70_emit_many_partial`, `C70_refuted`, `C70_single_refuted`, `C71_bound_partial`, `C71_once`, `C71_bound_refuted`, `C72_ends`, `C72_iterators_matter`, `C73_reaches`, `C73_emitter`, `C73_as_reset`, `C73_schema`, `C73_positions_refuted`, `C73_values_refuted`, `C74_naive`, `C74_same_zone`, `C74_same_zone_obtained`, `C74_two_zones`, `C74_membership`, `C74_membership_same`, `C74_mixed`, `C74_any_zones_refuted`, `C74_any_member_refuted`, `C75_naive_elements`, `C75_no_element_inside`, `C75_zone_refuted`, `C75_length`, `C76_hash`, `C76_elements`, `C76_elements_refuted`, `C76_elements_datetimes_refuted`, `C78_iterates`, `C78_insert`, `C78_pop`, `C78_live`, `C78_source`, `C78_refuted`, `C78_one_member`, `C78_reaches_nobody`, `C78_copy_refuted`, `C79_own_generator_partial`, `C79_given`, `C79_handed_on`, `C79_apart`, `C79_assigned_refuted`, `C79_nested_refuted`, `C80_as_naive`, `C80_first`, `C80_spacing_partial`, `C80_first_refuted`, `C80_spacing_refuted`, `C81_positions`, `C84_schemas`, `C84_emitters`, `C85_fields_vary_refuted`, `C85_equal_fields`, `C86_word`, `C86_field`, `C87_same_draw`, `C87_never`, `C88_same`, `C88_fresh`, `C88_assign`, `C89_calls`, `C89_calls_plain`, `C89_reset`, `C89_seed`, `C89_seed_plain`, `C89_new`, `C89_schema`, `C89_replay_any_refuted`, `C90_emit`, `C90_emit_many`, `C90_negative`, `C90_batches`, `C90_fixed_new`, `C90_fixed_calls`, `C91_raises`, `C91_raises_many`, `C91_no_stop_iteration`, `C91_finished`, `C91_stays_finished`, `C91_reset`, `C91_goes_on_refuted`, `C92_hangs`, `C92_never`, `C92_new`, `C92_set`, `C92_refused`, `C92_accepted_refuted`, `C93_live`, `C93_new`, `C93_emptied`, `C94_follows`, `C94_weights_stay`, `C94_one_item`, `C94_emptied`, `C94_first_length`, `C94_reset`, `C94_grown_refuted`, `C95_unseen`, `C95_reset`, `C95_reset_refused`, `C96_reset`, `C96_reset_children`, `C96_construct`, `C96_keywords`, `C96_exact`, `C96_own_late`, `C96_refuted`, `C97_order`, `C97_rejected`, `C97_reset`, `C97_seed`, `C97_refuted`, `C97_world_reset`, `C97_world_seed`, `C97_choice`, `C97_field`, `C98_kept`, `C98_kept_field`, `C98_program`, `C98_program_field`, `C98_assigned`, `C98_assigned_field`, `C98_new_choice`, `C98_new_word`, `C98_new_text`, `C98_new_wrapone`, `C98_new_wrapmany`, `C98_new_based`, `C98_new_field`, `C98_reset`, `C98_reset_field`, `C98_replay`, `C98_replay_emitter`, `C98_direct_refuted`, `C99_assign`, `C99_missing`, `C99_restore`, `C99_remove`, `C99_part`, `C99_reset`, `C99_seed`, `C99_left_alone`, `C99_replay`, `C99_loop_made`, `C99_loop`, `C99_no_loop`, `C99_loop_or_not`, `C99_word`, `C99_wrapone`, `C99_wrapmany`, `C99_count_refuted`, `C100_same_draw`, `C100_first_letter`, `C100_tied`, `C100_apart`, `C101_twice_refuted`, `C101_skips`, `C101_index_error`, `C101_values`, `C101_bound`, `C101_locked`, `C102_pooled`, `C102_locked`, `C103_fails_refuted`, `C103_lost`, `C103_reset`, `C103_nothing_twice`, `C103_single`, `C103_locked`, `C104_copies_refuted`, `C104_other_thread`, `C104_values`, `C104_locked`, `C105_statement_refuted`, `C105_short`, `C105_points`, `C105_never_twice`, `C105_with_replacement`, `C105_reset`, `C105_whole`, `C106_weights_refuted`, `C106_number`, `C106_contradiction`, `C106_weights_again`, `C106_seed_again`, `C106_replace_again`, `C106_after_again`, `C106_whole`, `C107_torn_refuted`, `C107_stays`, `C107_shift`, `C107_copies`, `C107_emitters_decide`, `C108_goes_on_refuted`, `C108_whole`, `C108_points`, `C108_finished`, `C108_reset`, `C109_items_refuted`, `C109_first`, `C109_later`, `C109_again`, `C109_whole`, `C110_made_or_not_refuted`, `C110_static_refuted`, `C110_iterative_refuted`, `C110_static`, `C110_iterative`.

Depending on `ClassicalDedekindReals.sig_not_dec`, `ClassicalDedekindReals.sig_forall_dec`, `FunctionalExtensionality.functional_extensionality_dep`, `Classical_Prop.classic` (53 theorems):

`C01_dtrange_elements`, `C02_wrong_side_partial`, `C02_wrong_side_raises`, `C05_slicing_partial`, `C05_exact`, `C07_time_range`, `C08_full_clock_partial`, `C08_full_clock_backwards_raises`, `C09_time_slicing_partial`, `C09_exact`, `C11_step_validation_partial`, `C11_exact`, `C16_never_loops_doubles`, `C16_exact`, `C17_few`, `C17_many`, `C17_zero_weight`, `C18_doubles_zero_weight`, `C20_gaussian`, `C24_exact`, `C26_doubles_refuted`, `C30_chance_doubles`, `C30_any_p_refuted`, `C30_exact`, `C30_cancels`, `C57_stop_attribute`, `C72_ends_doubles`, `C77_float_step`, `C77_elements`, `C77_other_steps`, `C77_terms_refuted`, `C77_count_refuted`, `C77_positive_refuted`, `C80_slicing`, `C81_few`, `C81_many`, `C82_without_replacement`, `C82_arrangements`, `C82_with_replacement`, `C82_uniform`, `C82_after_call_few`, `C82_after_call_many`, `C82_after_call_arrangements`, `C82_chance`, `C82_distribution`, `C83_with_replacement`, `C83_uniform`, `C83_without_replacement`, `C87_product_refuted`, `C87_probability`, `C100_statement_refuted`, `C100_probability`, `C100_apart_probability`.

Depending on `ClassicalDedekindReals.sig_not_dec`, `ClassicalDedekindReals.sig_forall_dec`, `FunctionalExtensionality.functional_extensionality_dep` (1 theorems):

`C19_poisson`.

Depending on `ClassicalDedekindReals.sig_forall_dec`, `FunctionalExtensionality.functional_extensionality_dep` (1 theorems):

`C81_first_sum`.

## 5. What is modelled and what is not

Modelled: `dtrange.py` (the text of `__repr__` is represented by the values in it), `mathtools.py`
(all), `mixins.py` (all), `emitter.py` (`Emitter`, `EmitterGroup` behaviour
through `group.py`), `group.py` (`do_method`, `setattr`, sequence and mapping
behaviour used by the package), `warn.py` (all), `profile.py` (all but
`__repr__`), `emitters/choice.py` (all), `emitters/fixed.py` (all),
`emitters/fromfields.py` (all), `emitters/text.py` (all),
`emitters/wrappers.py` (all; of the deprecated abstract `Wrap`, subclasses that emit as WrapMany does), registries in
`emitters/__init__.py` and `__init__.py`.

Not modelled, or simplified:

* `typing.py` (protocols only), `__repr__`, docstrings, messages of exceptions
  (only their classes).
* Time zones are in `DtZone.v` only (properties C74-C76); strings with offsets and
  the other properties of ranges are for naive values.
* Classes of the user: the heap model has emitters of classes derived from
  `Emitter`, with or without `RandomMixin`, whose emit, emit_many and reset are any
  partial functions of the object's own attributes and generator. They have no child
  emitters, use no other emitters or fields, and have neither `items` nor
  `replace_only_after_call`. Fields and schemas are fauxdoc's own. The class-level models
  (`WrapModel.v`, `TextModel.v`, `FieldModel.v`) do allow any children.
* Inheritance (`MroModel.v`, C96 and C97): method bodies are lists of statements before
  and after one call of `super()`, each reading and setting attributes; positional
  arguments, properties, and the constructors of the concrete classes are left out.
* Replacing a child through the `emitters` mapping is modelled for Word, Text, WrapOne and
  WrapMany (`ChildModel.v`, C99), with their own labels (any labels for WrapMany); labels
  they do not use are left out. It is not among the commands of the programs of the
  other properties, where parts are older than what they are part of. Assigning to private
  attributes is not modelled.
* Threads beyond emitters and schemas shared by threads in C101 to C104 (there: a thread is switched
  only between two accesses to the shared emitter; settings do not change and there is no reset
  while threads run; `Random.choice`, `Random.sample` and `weighted_shuffle` are one step,
  and so are the factory of an Iterative emitter with the iterators it gives, and in C104 the
  emitters of a field);
  memory; `KeyboardInterrupt` other than in operations of a Choice, calls of a schema and calls
  of Iterative and Sequential emitters, and assignments to iterator_factory and to value of
  Static emitters (C105 to C110). The recursion limit only in C99, as a bound on the
  depth of nested emitters.
* User functions may do anything with their arguments and the rng but do not
  call back into emitters or fields.
* Outside `IterModel.v` (C90-C93), the iterator given by a factory of `Iterative` has
  its elements fixed when the factory returns it, and raises nothing. It may be
  infinite. Likewise the list given to a `Sequential` or (outside C94 and C95) a
  `Choice` does not change.

### 5.1 Checking the model against the expectations in /repo/tests

Nothing is run from /repo. Its test files state, as literals, what the package
returns for seeds such as 999. `Mersenne.v` models CPython's `random.Random`
(seeding, `random()`, `getrandbits`, `randrange`, `sample`), written from
CPython's sources. The files `Conform_*.v` compute the model on that generator
for the arguments in the tests. Each states that the result is the list
written in the test. These are checks of the model on examples, by computation
with `vm_compute`; they are not part of any claim in MANIFEST.json, and no property
theorem depends on them. Those that run the generator end in `Abort`: the build
fails if one of the equations is wrong, but none is kept, because `coqchk` has no
virtual machine and would need hours to redo them. They show that the model draws the same numbers in
the same order and does the same with them as the code does. About 450 expectations, among them the ten documents of
`test_schema_generates_record_dict` (without the field `id`), are reproduced exactly.
Left out are tests of messages, nouns and read-only attributes, of sources that
are not fauxdoc's own emitters, and the tests of `poisson_choice` and
`gaussian_choice` themselves (where other tests use `poisson_choice`, the weights
are given as the doubles of its formula).

## 6. Findings: where the code differs from what a user would expect

Date/time ranges:

* `dtrange` with a stop at least one step on the wrong side gives a range whose
  `len()` and `list()` raise ValueError (C02). The same holds for a time range
  with start equal to stop and a negative step (C08).
* A zero step raises ZeroDivisionError (C13). So does a positive float step below half a
  microsecond (C77).
* A float step is rounded to microseconds once: with a third of a second, elements
  drift by a third of a microsecond each, and a range over ten days has two
  elements too many (C77).
* A length that is castable to int but is not an int passes the setter and then raises TypeError (C62).
* Slices with a start outside the calendar or a huge step raise OverflowError
  (C05). Slicing a time range with a step of a day or more raises ValueError (C09).
* Time ranges over more than a day contain values that `in` denies (C10). Equal
  time sequences with different steps compare unequal (C06).
* Date steps above 2^34 s can carry microseconds that the check misses (C11).
* `datetime in range_of_dates` raises TypeError (C12). So does asking a range of aware
  datetimes for a naive one (C74).
* The elements of a range of aware times are naive, and not in the range (C75).
* Adding a timedelta sets fold to 0, so a range whose start has fold 1 begins an hour
  before start (C80).
* With zones whose offset changes, elements may be after a stop given in another
  zone (C74).

Choice and mathtools:

* A draw of exactly 0.0 makes `weighted_shuffle` raise ValueError from
  `math.log`; a zero weight there raises ZeroDivisionError (C16, C24).
* `weighted_shuffle` with a negative number never ends.
* A negative number given to a Choice without replacement corrupts its
  bookkeeping: values repeat (C23, C59). Negative repeat counts and word
  lengths do the same through Field and Word (C34).
* A failed assignment of `replace` can leave the emitter between two states.
* With `replace_only_after_call` the number of items is taken once, at construction: if
  the list grows later, requests it could answer are refused, even after reset() (C94).
* `weights=[]` is taken as no weights, `cum_weights=[]` raises ValueError.
* Unhashable items: an over-request raises TypeError rather than ValueError.
* `poisson_choice` with 171 items or more raises OverflowError (C21).
* `chance(p)` with huge p raises ValueError at each call (C30).
* weights computed from float `cum_weights` need not sum back to them (C26).

Classes:

* `Emitter`, `Iterative` and `Sequential` do not call `super().reset()`. A class that lists
  one of them before a mixin is constructed without complaint but has no rng;
  `seed` then raises AttributeError or, with RandomWithChildrenMixin, hides it (C96, C97).
* The constructor calls `reset` from within `super().__init__()`: a subclass whose `reset`
  uses its own attributes must set them first (C96).
* The docstring of RandomMixin says that `rng_seed` changes when it is assigned or by `seed`.
  It also changes when the object is made part of a Word, Text, wrapper or Field, and
  when one of these is reset: it becomes theirs, even if theirs is None (C98).
* The mapping `emitters` is public and can be assigned to, but `num_unique_values` of a Word or
  Text is not computed again: it then is neither the number of values nor a bound (C99_count_refuted).
  Nothing keeps an emitter from becoming part of itself; every use then ends in
  RecursionError (C99_loop).

Fixed, Word, Text:

* After an exception in the user's iterator or factory an `Iterative` is dead until
  reset: `emit()` raises StopIteration and `emit_many(n)` quietly returns `[]`, whatever
  `n` (C91). With `reset_after_call`, that empty answer revives it.
* The emptiness check does not prevent infinite loops: a factory that returns the same
  iterator again is accepted, loses its first value to the check, and hangs once the
  iterator is used up (C92). So does a `Sequential` whose list has been emptied (C93).
* The first iterator of an `Iterative` factory is used up by the emptiness check.
* `Iterative` and `Sequential` raise ValueError for negative numbers where
  other emitters return an empty list.
* Choice without replacement is not safe to share between threads (C101): taking the item,
  moving the index and counting down are separate steps, so two threads can get the same
  item, and a lost update of the counter makes a later call fail with IndexError instead of
  the documented ValueError. With replacement nothing is lost (C102). A Sequential or
  Iterative emitter shared by threads can fail with "generator already executing", and
  em(n) then loses values (C103). A field shared by threads can return the value of
  another thread's call, because it returns what it finds in _cache (C104).
* A Choice without replacement whose call is interrupted between choice.py:321 and 322 raises
  IndexErrors, or returns too few values, when it comes to its end (C105). An interrupted
  assignment to weights can leave weights and cum_weights that do not belong together, one to
  replace_only_after_call a wrong num_unique_items, and reset() repairs neither; assigning
  replace=False again after an interrupted replace=False does nothing (C106).
* After a schema call that failed or was interrupted, fields that come in step (an id and the
  name that goes with it, say) are out of step until the fields are reset (C107).
* An Iterative or Sequential emitter that is interrupted in its generator gives empty lists for
  em(n), without an error, and StopIteration for em(), until it is reset (C108). An interrupted assignment to
  iterator_factory of a Sequential emitter can leave items that are not those emitted, and
  reset() need not repair it (C109). So can one to value of a Static emitter (C110).
* A seeded Word gives its seed to both of its emitters, so the length and the first
  letter of the first word come from one random number (C100). With equal weights for
  two lengths and two letters, half of the words never come first; the same happens for
  every row of data that is made after a reset with a new seed.
* Text with 0 words raises IndexError, or returns fewer texts (C38). A
  negative number of texts still consumes separators.
* `num_unique_values` of a Word or Text is calculated once: it is wrong after its
  length, alphabet, word or separator emitter has been given other settings (C71).
* `make_alphabet([])` gives the default alphabet (C35).
* A seeded Word without replacement in its alphabet repeats the same
  permutation after each reset.

Wrappers, fields, schema:

* Creating a BasedOnFields calls its source fields (C44).
* BasedOnFields called for n values calls its action once and repeats the
  value, also for n <= 0 (C61).
* A field without a seed overwrites its emitters' seeds with None (C53).
* All parts of a seeded object, and all fields of a schema given a seed by
  `seed_fields`, get the very same seed, so their random numbers are the same, not
  independent: two fields with alike emitters have equal values in every document
  (C85).
* Within one seeded field the gate emitter and the value emitter also get the same
  seed, and so the same random numbers: with gate chance(0.5) and a weighted choice
  of two equal items, the first value is never the second item, for any seed (C87).
* A source labelled 'rng' passes validation although every later call raises
  TypeError (C42). A wrapper function refused by the setter is installed all the
  same (C60).
* The mock call is stricter than a real call: a positional-only parameter's name given as
  keyword next to `**kwargs` is refused.
* `em2.wrapper = em1.wrapper` leaves the wrapper bound to em1: em2 draws from the
  generator of em1, and seeding em2 has no effect on it; so does
  `em2.wrapper.function = em1.wrapper`. `em2.set_wrapper_function(em1.wrapper)` binds
  anew (C79). Any callable that happens to have an attribute `function` is replaced by
  this attribute.
* CopyFields of a multi-valued field that emitted [] gives None; if such a field emitted a single value (it was asked for None repetitions), its copy is a list of one (C51, C51_exact).
* A repeat emitter with items (None,) makes a field count as multi-valued.
* `do_method` also hides AttributeErrors raised inside the methods it calls.
* A slice, sum, multiple or copy of an ObjectGroup has one member, a list or the group;
  `do_method` and `setattr` through it reach nobody, silently (C78). A copy of a
  single-valued SourceFieldGroup is not single-valued.

## 7. Tests of the theorems

`seeded/LOG.jsonl` lists edits of the model in the manner of realistic bugs, made in a
scratch copy, with the theorems that then failed to prove.

