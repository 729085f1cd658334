# Formal model of OnekaPy in Rocq (Coq 8.16.1)

Everything under `rocq/theories/`. `properties.jsonl` lists the properties,
`MANIFEST.json` maps each to its theorems, `seeded/LOG.jsonl` records the
mutation experiments.

## 1. Approach

* **One generic model, several arithmetics.** Each Python function is
  transcribed once, over a type class `Num` of numbers (`Num.v`): `+ - * /`,
  comparisons, `floor`, `sqrt`, `log`, ... with IEEE special values.  It is
  instantiated at
  * `xr` -- *exact* real arithmetic extended with `+inf`, `-inf`, `NaN` and IEEE
    rules for the special values (comparison with NaN is false, 0/0 = NaN, ...).
    The property theorems are about this instance, except where a property is about rounding.
  * `spec_float` (binary64, `Coq.Floats.SpecFloat`) -- bit-exact IEEE doubles.
    Used for the theorems about rounding (C08, C19, ...) and to *run* the model on the
    repository's own unit-test values (`Tests.v`).
* **Exceptions are values** (`res A = Ok | Raise e | NoFuel`).  A mutating
  method returns the new object state together with the result, so "raises and leaves
  the object unchanged" is expressible.
* **`while` loops** are recursion on explicit fuel, `NoFuel` when exhausted.
  Partial-correctness theorems hold for every fuel; termination theorems exhibit fuel
  that suffices, non-termination theorems show `NoFuel` for every fuel.
* **External code** (`np.linalg.lstsq`, `np.linalg.inv`, the random
  generators, `pickle`, the clock) enters as explicit arguments ("oracles"). Theorems state
  the contract they need as a hypothesis, and the contract is shown satisfiable.
* **Specifications** are in separate small files (`Spec*.v`), in plain mathematics
  (reals, sets of points, sums over lists) without reference to the model's helpers.
* **Properties** are in `Prop*.v` files which contain only theorem statements closed by
  `exact`, `Print Assumptions`, and non-vacuity examples.

## 2. Per-property plan

| id | modelled | proof |
|----|----------|-------|
| C01 | constructor | case analysis |
| C02-C07 | `expand`, both branches, 4 growth loops | loop invariants by induction on fuel; Archimedes for termination |
| C08 | same loops at binary64 | refutation: fixed points of `x - d`; otherwise strict progress by at least 2^-1074 (Flocq); exact criterion: an edge at a fixed point |
| C09 | `distancesquared` | projection onto the segment, nsatz/nra |
| C10, C11 | `insert`, `rasterize`: window arithmetic, nested loops | loop invariants, floor lemmas |
| C12, C13 | same | refutation witnesses; the true part is C10/C11 |
| C14-C17 | `register`, `reset`; histories as op lists | refinement to an abstract lattice field, induction over histories |
| C18 | missing attributes | case analysis |
| C19 | `register` at binary64 | monotonicity of rounding (Flocq), exactness of small integers |
| C20-C23 | potential, discharge | reduction to a real formula, derivatives of the standard library |
| C24-C26 | head, velocities | real analysis |
| C27-C35 | `construct_fit`, `compute_fit`, `fit_regional_flow`; lstsq/inv as oracles | list linear algebra over R |
| C36-C45 | `compute_backtrace` with try/except/finally | invariants by induction on fuel; termination by a step-size lower bound |
| C46, C47 | `compute_capturezone`, `feval` closures | trigonometry; C21 |
| C48-C54 | `filter_obs` | list induction |
| C55-C58 | dynamic Python values, distributions; RNG as oracle | case analysis; C56 also at binary64: monotonicity and relative error of rounding, refutation witnesses |
| C59-C63 | both drivers, end to end | composition with C15 |
| C64-C67 | `oneka()` validation and pipeline | case analysis |
| C68-C72 | numeric content of plots (matplotlib calls not modelled) | sorting, counting |
| C73, C74 | archive: file system as a map, pickle as a codec, file-name formatting | digit injectivity |
| C75 | `summary_statistics` numbers | sorting |
| C76 | `rasterize`, `reset` | refutation witness (the grid stays grown); what holds (ProofDiscard.v): old nodes and the total are unaffected, no node loses weight, a discarded track inside the grid has no effect |
| C77 | all fuelled loops | monotonicity in the fuel |
| C78 | the window `pr[i:j]` of `create_impact_plot` | sorting; refutation witness |
| C79 | `dump_oneka` interrupted at any byte | file system as a map |
| C80 | `oneka()` to its end | composition |
| C81 | the shipped `data/*.py`, `runme.py` | computation at binary64 |
| C82 | `oneka()` on well-posed arguments | totality of every step |
| C83 | `oneka()` from arguments to the archived field | composition of C15, C21, C24-C31, C46, C55-C60, C66 |
| C84 | Gaussian smoothing of the probability plot (`scipy.ndimage.gaussian_filter` transcribed) | finite sums |
| C85 | cells filled by `create_deterministic_plot` | C70; list induction |
| C86-C88 | `contour_potential`, acres of the impact plot, `quick_capture_zone` | case analysis; refutation witnesses |
| C89 | grid growth at binary64 | additions of multiples of a unit are exact (Flocq) |
| C90 | `distancesquared` at binary64 | forward error analysis of each operation |
| C91 | `insert`, `rasterize` at binary64 | index windows exact on dyadic grids; C90 for the test |
| C92 | `register`, plotted probabilities at binary64 | exact sums; correctly rounded quotient |
| C93 | `compute_backtrace` at binary64 | elapsed time at most one number past the duration; exact for 52-digit durations |
| C94 | `Model.compute_discharge` | integral into and along any circle |
| C95 | both drivers, `rasterize`, `register` at binary64 | zones laid one after the other; every weight is a tally of flags |
| C96 | `create_stochastic`, `realizations`, `generate_random_variate` in any arithmetic | `drawn`: the sequence of draws from one generator; `made`: the model a realization must have |
| C97 | `compute_backtrace` with `feval` in both modes, exact arithmetic | `clear`: distance to the wells and head at least d; `alarmed`: the velocity function raising elsewhere; `grows`: linear growth of a velocity (also used for C39) |
| C98 | `str.format` codes `d`, `03d`, `.nf`, `.ne` (`+`, `,`, widths) and `repr` of floats, over `Z` | `read`, `read_e`: a reader of decimal text; `rounded`: nearest, ties to even; shortest round-trip text (Flocq) |
| C99 | the text of `summary_statistics` | `field`: characters of a column; `shows`: read back |
| C100 | `log_the_run` | injectivity of the text of values; refutation witness |
| C101 | `filter_obs` with its messages | `beginning`: the messages of one kind; permutations |
| C102 | the lines of the drivers and of `oneka` about results | `parts`: the texts between commas; `shows`, `shows_e`; fields of the table |
| C103 | `compute_backtrace` with `feval`, confined, exact arithmetic | `moves`: the particle that moves with the velocity function; refuted; holds for accepted steps that are short against the spreading of the flow |
| C104 | `compute_backtrace` with `feval`, confined, no wells, exact arithmetic | `clocked`: vertices with their times, a Dormand-Prince step between them; `steps_within`: the longest step; `moves`, `pathline`, `stretch` |
| C105 | `compute_backtrace` with any velocity function and with `feval`, confined, exact arithmetic | `paced`: `clocked` before the second slope is known to be finite; `tame`: bounded and Lipschitz near the path; `moves` |
| C106 | deterministic and stochastic runs (C83), confined, exact arithmetic | `beside`: a track and a path within a distance of each other; `zone`, `traced`, `water`, `agrees`: a capture zone, the paths of the water to its start points, and where the two must agree |
| C107 | `compute_backtrace` and runs (C83), confined, exact arithmetic | `gradient`: size of the velocity gradient; `calm`, `resolved`: conditions on the computed vertices and times; `flows`, `off_the_wells`: paths of the water; `tells`: what a node says about them |
| C108 | `oneka`, both drivers, `compute_backtrace`: messages and effects in order | `told`, `told_once`: the block of a run; `warnings`; `broken_off`: what a run that raises may have said; `lines` |
| C109 | `oneka` and `runme.main` in a new process | `two_kinds`, `program_lines`, `trace_lines`, `written_to` |
| C110 | calls of `runme.main` in one process | `calls`: the calls one after the other |
| C111 | `compute_backtrace`, binary64 | comparison of binary64 numbers |
| C112 | `calls` on `pf_init`, `call_stochastic`, `call_deterministic` | `SpecExactMap`: `covered`, `taken`, `exactly_recorded`; lattice and bounding box, no arrays |
| C113 | `call_stochastic` with every outcome of its draws | `SpecMonteCarlo`: `mean`, `share` and `tuples` over finite lists of equally likely outcomes; `zone_of` is the capture zone of a single realization |
| C114 | the same | the same |
| C115 | `call_stochastic`, `call_deterministic`, `filter_obs`, `oneka`, on `xr` | `SpecShift`: `moved` for coordinates, observations, wells, calls, fields; `seen_moved` relates the effects of the two runs |
| C116 | `realization`, `call_deterministic`, `call_stochastic`, `filter_obs`, `oneka`, on `xr` | `SpecOrder`: `wells_reordered`, `draw_alike` (two generators that give each well the same discharge), `seen_alike` |
| C117 | the same and `summary_statistics` | `SpecOrder`: `obs_reordered`, `apart`, `seen_reordered` |
| C118 | `compute_backtrace` with `feval`, unconfined, exact arithmetic | `SpecUnconfined`: `flux`, `flux_change`; `paced`, `clocked`, `moves` of C105 |
| C119 | `__repr__`, `__str__` of fields and models, binary64 | `SpecPrint`: `reads`, `rebuilds` |
| C120 | debug messages of `expand`, binary64 | `SpecPrint`: `reads` |
| C121 | `oneka` with its figures and their markers, exact arithmetic | `SpecFigure`: `figures`, `marked` |
| C122 | `compute_backtrace` with any velocity; deterministic and stochastic runs (C83), unconfined, exact arithmetic | `SpecWater`: `gentle`, `deep`, `shear`, `pace`, `traced_unconfined`, `submerged`, `drifts`; `tells` of C107 |
| C123 | `compute_discharge`, `compute_velocity_confined` at binary64 | `SpecDischarge`: `moderate_model`, `load_x`, `load_y`; forward error analysis of each operation (Flocq), exact discharge by C21's formula |
| C124 | `compute_backtrace` at binary64, any velocity; confined velocity | `SpecRough`: `faithful`, `rounding`, `astray`, `clock`, `reckoned`; `gentle` of C122; error of each stage, then Gronwall |
| C125 | both drivers at binary64 | `SpecVoyage`: `voyage`, `sailed`, `chart`, `charted`, `seaworthy`, `carries`, `blur`, `shows`; composition of C95 and C124 |
| C126 | `compute_potential` at binary64 | `SpecLevel`: `log_within`, `load_p` |
| C127 | `compute_head`, `compute_velocity` at binary64 | `SpecLevel`: `sized`, `level_error`, `firm`, `water_depth`, `depth_error` |
| C128 | `compute_backtrace` along `compute_velocity` at binary64 | `SpecLevel`: `burden_p`, `level_bound`, `current_error`, `sound`; `SpecWater`: `deep`, `shear`, `pace`; composition of C124, C127 and C122 |
| C129 | `table`, `table_text`, `by_code` (`summary_statistics` with any columns) | `SpecColumns`: `cell`, `shows_as`, `roomy`, `split_lines`; `SpecText`: `shows`; `SpecLines`: `shows_e` |
| C130 | `program`, `dump_there`, `profile_me`, `script` | `SpecSession`: `required`, `values_of`, `file_in`, `file_here`; `SpecTranscript`: `written_to`, `program_lines` |
| C131 | `create_probability_plot`, `create_deterministic_plot`, `create_impact_plot` in binary64 | `SpecExact`: `dyadic`, `compact`, `sound_grid`, `exact_field`; `SpecPlot`: `enumerates`, `captured` |
| C132 | `decile_table` in binary64 | `SpecDecile`: `reaching`, `low`; `SpecPlot`: `exceeding`; comparison with C69 |
| C133 | `start_angles`, `start_point` in binary64 | `SpecStart`: `circular`; `ring_point` of C46 |

Where the unchanged code violates a documented property, the theorem is
named `..._refuted` (an explicit witness), and the strongest true part is proved beside it.

## 3. Trusted base

1. **Coq 8.16.1's kernel** (and `coqchk`, which re-checks the compiled files), with the standard
   library.  No plugin, no axiom of our own, no switched-off check, no unproved goal.
2. **Axioms of the standard library**, all of them consequences of using `Coq.Reals`:
   * `ClassicalDedekindReals.sig_forall_dec`, `ClassicalDedekindReals.sig_not_dec`
     (the construction of the reals),
   * `FunctionalExtensionality.functional_extensionality_dep`,
   * `Classical_Prop.classic`.

   `coqchk` also prints the entries `Coq.Reals.*.RbaseSymbolsImpl.*`, `RinvImpl.*` and
   `Coq.ssr.ssrunder.Under_rel.*`: these are sealed modules of the standard library (definitions hidden
   behind a signature), not assumptions of a theorem here.
3. **Flocq** (a library of definitions and lemmas about binary floating point) is imported only by
   `ProofFloat.v`, `ProofFloatGrow.v`, `ProofFloatOps.v`, `ProofFloatMean.v`, `ProofFloatGrid.v`, `ProofFloatDist.v`, `ProofFloatInsert.v` and
   `ProofFloatWeight.v`, `ProofFloatTrace.v`, `ProofFloatStuck.v`, `ProofTextRepr.v`, `ProofTable.v`, `ProofLog.v`, `ProofLines.v`, `PropText.v`, `ProofRoughFloat.v`, `ProofRoughStep.v`, `ProofRoughTrace.v`, `ProofDischargeFloat.v`, `ProofDischargeAcc.v`, `ProofDischargeTrace.v`, `ProofDischargeEx.v`, `ProofLevelPot.v`, `ProofLevelHead.v`, `ProofLevelVel.v`, `ProofLevelEx.v`, `ProofLevelTrace.v`, `ProofLevelTraceEx.v`, `ProofAreas.v`, `ProofDecileFloat.v` and `ProofStartFloat.v` (`ProofFloatField.v`, `ProofFloatCases.v` and `ProofFloatZone.v` use its powers of two); none of its results used here brings an axiom beyond those above.
4. **The transcription**: that the definitions in `Model*.v` say what the Python text says.  Each
   definition cites the file and the lines.  `Tests.v` runs the repository's unit tests on the binary64
   instance of the model, with the numbers and tolerances of `/repo/tests`.
5. **The arithmetic**: theorems at the instance `XR` are about exact real arithmetic with IEEE rules for
   infinities and NaN; rounding is *not* part of them.  Theorems about binary64 say so
   (C08, C19, C56_…_binary64, C59_binary64, C60_binary64, C89-C93, C95, C39_binary64_refuted, C40_binary64_refuted, C98-C100, C102, C108-C111, C123-C128, C131-C133, the example of C96 and the `forall (T : Type) (N : Num T)` theorems, which hold for every
   arithmetic including binary64).

### What `Print Assumptions` lists

<!-- assumptions: begin -->
549 theorems and examples, grouped by the axioms that `Print Assumptions` lists for them.

* **closed under the global context (no axioms)** (108): C08_expand_binary64_refuted, C08_integer_lattice_example, C19_binary64_example, C34_failed_fit_changes_nothing, C48_any_arithmetic, C51_idempotent, C59_history, C59_any_arithmetic, C59_only_means, C59_single_realization, C60_history, C60_any_arithmetic, C61_seeded_partial, C61_constant_partial, C77_field, C77_backtrace, C77_capturezone, C77_deterministic, C77_stochastic, C68_uninitialised, C86_total, C88_refuted, C73_roundtrip, C73_example, C74_names_partial, C74_kept_partial, C74_refuted, C74_example, C79_crash, C79_archives, C79_example, C67_never, C67_archived_partial, C73_run, C56_overflow_refuted, test_model_compute_potential, test_model_compute_head, test_model_compute_discharge, test_model_compute_velocity, test_model_compute_fit, test_probabilityfield_constructor, test_probabilityfield_expand, test_probabilityfield_distancesquared, C81_binary64, C96_stochastic, C96_draws, C96_example, C39_binary64_refuted, C39_binary64_example, C40_binary64_refuted, C98_layout, C98_padding, C98_special, C98_fixed_example, C98_scientific_example, C98_repr_example, C99_wide_example, C100_log_example, C100_returns_example, C101_result, C101_example, C101_zero_example, C108_example, C108_deterministic_example, C108_levels, C108_levels_example, C109_kinds, C109_first, C109_refuted, C110_calls, C110_last, C110_same_second, C110_refuted, C111_truth, C111_refuted, C111_example, C73_missing, C75_no_rows, C79_raised, C119_empty_partial, C119_str_partial, C119_defaults, C119_model_example, C119_field_example, C120_failure, C120_first_refuted, C120_example, C98_string, C98_centred, C98_literal_example, C129_text, C129_example, C129_sign_example, C129_text_example, C130_where, C130_absent, C130_runs_partial, C130_lacking, C130_leftover, C130_windows_refuted, C130_posix_refuted, C130_archive, C130_blame_refuted, C130_script, C130_profile, C130_data, C130_example, C130_leftover_example
* **`ClassicalDedekindReals.sig_forall_dec`** (1): C66_values
* **`ClassicalDedekindReals.sig_forall_dec`, `FunctionalExtensionality.functional_extensionality_dep`** (35): C14_reset_exact, C31_fewer_than_six, C39_cliff_example, C42_order_five, C42_order_four_embedded, C42_orders_sharp, C42_rows, C42_trees_example, C44_derivatives, C50_unique, C61_example, C68_enumeration, C85_disjoint, C65_example, C89_decimal, C92_credit_unique, C93_past, C56_triple_binary64_refuted, C08_wide_example, C08_narrow_example, C08_exactly_example, C98_fixed, C98_scientific, C98_integer, C99_table, C100_determines_refuted, C101_accounts, C102_realization, C102_deterministic, C102_deciles, C102_area, C102_lines_example, C112_centre, C115_nodes, C129_table
* **`ClassicalDedekindReals.sig_forall_dec`, `ClassicalDedekindReals.sig_not_dec`, `FunctionalExtensionality.functional_extensionality_dep`** (7): C46_on_circle, C46_distinct, C46_ring_example, C49_example, C50_example, C57_satisfiable, C106_near
* **`ClassicalDedekindReals.sig_forall_dec`, `ClassicalDedekindReals.sig_not_dec`, `Classical_Prop.classic`, `FunctionalExtensionality.functional_extensionality_dep`** (398): C01_constructor_rejects, C01_constructor_centred, C01_constructor_uncentred, C01_constructor_example, C02_expand_contains, C02_expand_example, C03_expand_preserves, C04_geometry_invariant, C04_from_constructor, C04_lattice_fixed, C05_expand_noop, C05_expand_idempotent, C05_expand_minimal, C06_inverted_box, C06_inverted_example, C07_expand_terminates, C09_distance_lower, C09_distance_attained, C09_distance_symmetric, C09_distance_example, C10_insert_exact, C11_rasterize_exact, C11_rasterize_returns, C11_rasterize_first, C11_rasterize_spacing, C11_rasterize_example, C11_unequal, C11_unequal_example, C12_order_refuted, C12_order_partial, C13_stationary_marks_nothing, C13_stationary_refuted, C14_register_exact, C15_ledger_exists, C15_ledger_unique, C15_accumulated_weight, C15_history_example, C16_probability_bounds, C17_reset_discards, C17_reset_example, C18_uninitialised, C18_uninitialised_example, C76_discarded_refuted, C76_more_partial, C76_old_nodes_partial, C76_inside_partial, C76_example, C76_inside_example, C08_infinite_box_hangs, C08_integer_lattice_partial, C19_binary64_bounds, C19_unit_counts, C20_superposition, C20_additive, C20_order_of_wells, C20_coincident_wells, C20_at_the_well, C20_potential_example, C21_discharge_is_minus_gradient, C21_discharge_example, C22_divergence, C22_example, C23_radial_inflow, C23_example, C24_head_inverts_potential, C24_head_increasing, C24_head_continuous, C24_head_example, C25_velocity, C25_dry_branch_unreachable, C26_confined_shortcut, C26_confined_at_well, C26_shortcut_example, C27_construct_fit_range, C27_range_example, C28_row_residual, C28_fosm, C28_confined_inverse, C28_row_example, C29_recovers_coefficients, C29_recovers_confined_heads, C29_recovery_example, C30_optimal_unique_covariance, C31_singular_iff_conic, C31_fit_succeeds_iff, C31_circle_example, C32_duplicates_harmless, C32_duplicates_refuted, C33_origin_invariance, C35_permutation, C35_scaling, C36_path, C36_path_example, C37_elapsed_time, C37_infinite_duration, C37_times_example, C38_tolerance, C38_tolerance_finite, C38_wild_example, C39_tiny_tolerance_refuted, C39_terminates_partial, C40_nan_refuted, C40_well_refuted, C41_no_exception, C41_prefix, C41_cliff_example, C42_constants, C43_estimate_zero, C43_uniform, C43_returns, C43_uniform_example, C44_affine_step, C44_confined_affine, C44_rotation_example, C45_reversal, C45_reversal_example, C46_paths, C46_no_paths, C47_climbs_confined, C47_climbs_general, C47_climb_example, C48_far, C48_used, C48_example, C49_sums, C50_best, C51_example, C52_neighbours_partial, C52_adjacent_partial, C52_example, C52_refuted, C53_refuted, C53_positive_partial, C54_partial, C54_metres_example, C54_refuted, C75_columns, C75_row_order, C75_example, C75_infinite_example, C55_exactly, C55_no_nan, C55_otherwise, C55_example, C56_mean_partial, C56_value_partial, C56_infinite_refuted, C56_example, C57_within, C57_within_finite, C57_example, C57_infinite_example, C58_refuted, C58_exactly_partial, C59_deterministic, C59_binary64, C59_nodes, C59_example, C60_stochastic, C60_binary64, C60_nodes, C60_example, C61_refuted, C62_refuted, C62_opposite_partial, C77_example, C68_curve, C68_example, C69_exactly_partial, C69_refuted, C69_example, C70_area, C70_example, C71_axes, C71_reachable, C71_example, C72_exactly_partial, C72_refuted, C72_example, C78_exactly_partial, C78_drawn_partial, C78_refuted, C78_example, C84_gaussian_mean, C84_unsmoothed, C84_range, C84_spread, C84_total, C84_example, C85_cells, C85_example, C86_map, C86_example, C87_whole_acres_partial, C87_small_partial, C87_refuted, C88_pieces_partial, C88_example, C53_validated_refuted, C63_partial, C63_porosity_refuted, C63_deviation_refuted, C63_example, C64_accepts, C64_rejects, C64_announced, C64_nrealizations, C64_refuted, C64_example, C65_partial, C65_refuted, C66_stochastic, C66_deterministic, C66_too_few, C66_driver_raises, C66_target, C66_example, C67_refuted, C80_deterministic, C80_stochastic, C80_example, C82_no_exception, C89_expand, C89_history, C89_constructor, C89_example, C90_accuracy, C90_degenerate, C90_example, C91_insert, C91_rasterize, C91_rasterize_returns, C91_example, C92_register, C92_history, C92_probability, C92_from_constructor, C92_example, C93_duration, C93_exact, C93_example, C93_program, C93_program_example, C94_balance, C94_circulation, C94_same_wells, C94_example, C56_pair_binary64_partial, C56_triple_binary64_partial, C56_triple_accuracy_partial, C56_binary64_example, C08_wide_partial, C08_narrow_refuted, C08_exactly_partial, C08_fixed_partial, C83_deterministic, C83_stochastic, C83_run, C83_deterministic_example, C83_stochastic_example, C81_accepted, C81_counts, C81_fit, C81_run, C82_example, C91_rasterize_total, C95_zones, C95_stochastic, C95_deterministic, C95_example, C39_growth_partial, C39_no_wells_partial, C39_saddle_example, C97_alarm, C97_forever, C97_alarm_exists, C97_well_example, C98_repr, C98_repr_injective, C99_table_example, C100_returns, C100_determines_partial, C103_refuted, C103_local_partial, C103_trace_partial, C103_saddle_example, C104_affine, C104_confined, C104_saddle_example, C105_tube, C105_confined, C105_pumped_example, C106_beside, C106_deterministic, C106_stochastic, C106_deterministic_example, C106_stochastic_example, C107_water, C107_water_example, C107_deterministic, C107_stochastic, C107_deterministic_example, C107_stochastic_example, C108_stochastic, C108_stochastic_raises, C108_same, C108_deterministic, C108_run_stochastic, C108_run_deterministic, C112_zones, C112_stochastic, C112_deterministic, C112_example, C113_unbiased, C113_bias, C113_centre, C113_example, C114_above, C114_below, C114_converges, C75_no_values, C75_no_values_example, C88_rays_partial, C88_rays_example, C115_stochastic, C115_deterministic, C115_filter, C115_run, C115_run_example, C116_realization, C116_deterministic, C116_stochastic, C116_constant, C116_filter, C116_run, C116_example, C116_draws_example, C117_filter_partial, C117_run_partial, C117_run_example, C117_refuted, C118_flux, C118_unconfined, C118_sloping_example, C119_reading, C119_fields_partial, C119_field_refuted, C119_empty_refuted, C119_models_partial, C119_model_refuted, C120_size_partial, C121_outcome_partial, C121_stochastic_partial, C121_deterministic, C121_apart, C121_infinite_refuted, C121_lost_refuted, C121_example, C121_infinite_example, C100_announced, C122_water, C122_unconfined, C122_unconfined_example, C122_deterministic, C122_stochastic, C122_deterministic_example, C122_stochastic_example, C123_discharge, C123_velocity, C123_example, C124_clock, C124_water, C124_confined, C124_example, C125_stochastic, C125_deterministic, C125_confined, C125_example, C126_potential, C126_example, C127_head, C127_velocity, C127_example, C128_unconfined, C128_charted, C128_example, C128_chart_example, C131_axes, C131_area, C131_impact, C131_points, C131_example, C132_rows_partial, C132_refuted, C132_example, C133_start, C133_outside, C133_example
<!-- assumptions: end -->

## 4. What is modelled, and what is not

| source | model | not modelled |
|--------|-------|--------------|
| `probabilityfield.py:125-427` | `ModelField.v`; `ModelPrint.v`: `__repr__`, `__str__`, debug messages of `expand` | numpy's text of an array (an argument); other array types |
| `model.py:131-606` | `ModelAquifer.v`; `ModelPrint.v`: `__repr__`, `__str__` | |
| `capturezone.py:51-253` | `ModelTrace.v`; the warnings: `ModelTranscript.v` | |
| `deterministic.py:65-235`, `stochastic.py:76-376` | `ModelDist.v`, `ModelDriver.v`; messages: `ModelLog.v`, `ModelTranscript.v` | |
| `utilities.py:34-257` | `ModelObs.v`; messages and table: `ModelLog.v`, with the conversions of `ModelText.v` | |
| `visualize.py` | `ModelPlot.v`, `ModelDraw.v`: the arrays that are computed, drawn and returned; `ModelFigure.v`: the figures of a run with the markers of wells and observations | matplotlib: colours, levels, labels |
| `archive.py` | `ModelArchive.v`; the directory: `ModelSession.v` | pickle and bz2 (a codec with a contract) |
| `oneka.py:73-375` | `ModelMain.v`: validation, pipeline, order of the effects; `ModelLog.v`: the text of the log; `ModelTranscript.v`: messages and effects in order | the debug messages among the others (only `expand` has any, see `ModelPrint.v`) |
| `tests/*.py` | `Tests.v` | |
| `data/*.py`, the lines of `runme.py` that choose them | `ModelData.v` (written by `tools/gendata.py` from the text) | |
| `runme.py` | `ModelLogging.v`: logging; `ModelSession.v`: import, attributes, directory, script | what the profiler prints; permissions, full disks |

Simplifications that the theorems depend on:

* **scipy.** `gaussian_filter(Z, s, mode='constant', cval=0)` is modelled as two passes of `correlate1d` with the weights
  that scipy computes (radius `int(4*s+0.5)`, none for `s <= 1e-15`); the order of the additions in a pass differs
  from scipy's, which matters for rounding only, and C84 is stated in exact arithmetic.  `oneka()` in `ModelMain.v`
  records the unsmoothed array.  `ModelFigure.oneka_drawn` smooths it; by C121 this raises nothing for a finite `smooth`,
  and OverflowError for an infinite one.

* **numpy.** Numbers reaching `Model` and `ProbabilityField` methods are treated as numpy float64:
  division by zero gives inf or NaN, not `ZeroDivisionError`.  Where Python floats are divided
  (`construct_fit`, `filter_obs`) the model raises `ZeroDivisionError`.  The aliases `np.float`, `np.bool`, which
  numpy 1.24 removed, are read as `float`, `bool` (the code is of 2020).  `linspace` follows numpy's order of operations
  (`arange(n) * step + start`, the last value set to the end), on which C131, C132 and C133 depend.
  Python integers are unbounded, and integers and floats mix exactly.
  `nsort` models `np.sort` for arrays without NaN only.
* **numpy.linalg** is a pair of functions; the contract (a least-squares minimiser, an inverse,
  `LinAlgError` for a singular matrix) is a hypothesis where it is needed, in exact arithmetic, and
  `ProofFitProps.v` shows a function satisfying it.
* **Randomness.** The global generator is a state machine with the documented support; `default_rng()` is
  a function of entropy supplied from outside.
* **Loops without bound** take fuel; C77 shows that the results do not depend on it, and non-termination is stated as
  "`NoFuel` for every fuel".
* **Aliasing.** Objects are values.  The only objects mutated in the source are `self` of `ProbabilityField` and
  `Model` and local lists; none of them is shared in a way a caller could observe, except the
  field passed to `compute_capturezone`, which is returned in its new state.
* **When a driver raises**, the lines it had already logged are not in the list of effects of `ModelMain.v`; they are in
  that of `ModelTranscript.v`, which C108_same ties to it.
* **logging.** Levels, the tree of loggers, handlers and the handler of last resort are those of the documentation; a
  closed `FileHandler` that is used again appends to its file; lines are the messages.
* **Text.** `ModelText.v` transcribes what CPython documents for the format codes and `repr` of floats (shortest text that
  reads back); numpy scalars print like Python floats (numpy before version 2).  Strings inside printed tuples are quoted
  as by `repr` for printable ASCII.
* **Values.** Arguments of `oneka` range over ints, floats, bools, strings, None, tuples and lists (nested).

## 5. Tools

* `tools/genprops.py` writes the `Prop*.v` files and `MANIFEST.json` from the lemmas named `cNN_*` in the `Proof*.v`
  files; the statement is copied, so what is proved and what is listed cannot differ.
* `tools/mutate.py` runs the theorems against wrong programs (see `seeded/LOG.jsonl`).
* `tools/gendata.py` writes `ModelData.v` from the literals in `/repo/data/*.py`.
* `tools/assumptions.py` fills the list in section 3.
