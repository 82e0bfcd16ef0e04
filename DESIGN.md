# Formal model of analog-cim-sim (C++ part)

The code under /repo/cpp simulates an RRAM crossbar: `set_config`/`update_config` choose a
configuration, `cpy_mtrx` writes a weight matrix, `exe_mvm` multiplies it with a vector.  This
directory holds a Rocq/Coq model of that code and proofs of the properties listed in
`properties.jsonl`.  `MANIFEST.json` names the theorems of each property.

## Trusted base

* Coq 8.16.1's kernel, including its virtual machine (`vm_compute` is used for witnesses and
  concrete examples; `native_compute` is not used).
* The axioms that `Print Assumptions` lists; it is run under every theorem in `P_*.v`.  Only three
  sets occur, all from Coq's standard library:
  * `-`: closed under the global context, no axiom at all;
  * `R2`: `ClassicalDedekindReals.sig_forall_dec` and
    `FunctionalExtensionality.functional_extensionality_dep` (the construction of the reals);
  * `R4`: `R2` with `ClassicalDedekindReals.sig_not_dec` and `Classical_Prop.classic` (the reals
    and what Flocq and the standard library derive about them).

  The table at the end gives the set of each theorem.  No axiom is added, no kernel check is
  switched off, and nothing is admitted.
* That the model says what the C++ code does.  Each definition cites the lines it transcribes.  The
  model is also run on the project's own unit tests (`RepoTests.v`, see "Validation").
* The statements: `Spec.v`, `RSpec.v`, `AnaSpec.v`, `RdSpec.v`, `ParSpec.v`, `KinSpec.v`, `WireSpec.v`, `HistSpec.v`, `DocSpec.v`, `LaxSpec.v`, `WideSpec.v`, `OddSpec.v`, `ProfSpec.v`, `MemSpec.v`, `AnaMemSpec.v` define what
  the theorems talk about (integer products, exact converters, read-disturb formulas, the resistor
  network, when two call sequences are of the same kind) without using the code's helper functions.

## How the code is modelled

| File | Code |
|---|---|
| `Base.v` | outcomes (`Ok`, `UB fault`, `Died`, `Threw`), checked int32 operations, bounds-checked buffers, loops |
| `Machine.v` | record of the floating-point operations used by the code |
| `RMachine.v`, `FloatMachine.v` | its two instances: exact reals; IEEE binary32/binary64 (Flocq) |
| `Json.v`, `Config.v` | helper/config.cpp: JSON values, `apply_config`, `load_cfg`, `update_cfg` |
| `Histogram.v`, `Profile.v`, `Adc.v` | helper/histogram.cpp (counting; the report), xbar/adc.cpp |
| `ReadDisturb.v`, `Parasitics.v` | xbar/read_disturb.cpp, xbar/parasitics.cpp |
| `Mapper.v` | mapping/mapper.cpp: the state shared by all modes, `a_write`, noise, `add_c2c`, read disturb, calls of the solver |
| `IntMappers.v`, `BnnMappers.v`, `TnnMappers.v` | mapping/{int,bnn,tnn}_mapper: the seventeen mapping modes: digital and analog writes and MVMs |
| `Crossbar.v`, `Api.v`, `Emu.v` | xbar/crossbar.cpp; interface_pybind.cpp (C and Python entry points); interface_emu.cpp |

* Undefined behaviour (out-of-bounds access, signed overflow, bad shifts, float-to-int conversions
  out of range, null dereference, division by zero, use of an uninitialised object) is a value of
  the outcome type, never assumed away.  So is `abort` (`Died`) and an exception (`Threw`).
* The `world` of `Api.v` is the process state: the configuration singleton with its JSON document,
  the crossbar if there is one, and the static counters.  Calls may come in any order; theorems
  about reachable states quantify over all call sequences from process start (`reach`).
* Scratch buffers that live in the C++ objects between calls are part of the state.
* Random numbers come from an arbitrary stream `bool -> nat -> F`; theorems quantify over it.
* Theorems about integers, memory, control flow and state hold for every `Machine` and hence for
  both instances.  Theorems about accuracy are stated in exact reals; where binary32 behaves
  differently a witness in IEEE arithmetic says so (C22, C23, C27, C58).  C90 is a general theorem
  about binary32 (`Exact32`, `ExactMvm`): currents for which no operation rounds.
* `strict_shl` selects C++17's (undefined) or GCC's (two's complement) meaning of a left shift of a
  negative number.

Proof files build on each other in the order of `_CoqProject`: loop rules and shapes (`Hoare`,
`WriteProofs`, `Shape`, `MvmShape`), digital results (`Dig*`), reachable states (`Reach`, `Cells`,
`Invar`, `StepFacts`, `NoDie`), interface (`ApiProps` to `LeakProps`), converters (`AdcProps`,
`FloatAdc`, `ResProps`), histograms (`Hist*`, `Prof*`), noise (`Noise*`, `D2dProps`), read disturb (`Rd*`),
ideal analog arithmetic (`Ana*`), statelessness (`Twin`, `Kin*`), wire resistance (`Ladder`,
`Par*`, `Wire*`, `Follow`), documents (`DocProps`, `LaxProps`), weights out of range (`Wide*`, `Odd*`), several writes (`Mem*`, `AnaMem`).  `Demo.v` and the `*Ex.v` files hold the concrete cases that show that hypotheses can be
met.  The property theorems are in `P_*.v`, which contain only statements closed by `exact`,
examples and `Print Assumptions`.

## Validation

`RepoTests.v` replays the project's unit tests on the model in IEEE arithmetic: all of
mvm_tests.cpp (17 modes, digital and analog), adc_tests.cpp and parasitics_tests.cpp, and
adc_test.py for every resolution.  All answers are the ones those tests assert.  These are tests of
the model; no property rests on them.  Not replayed: var_tests.cpp (random), the read-disturb tests
(they need libm's `pow` and `exp`), config_tests.cpp and lib_cb_emu_tests.cpp (covered by C55 and
C49).

`seeded/LOG.jsonl` records the mutation tests: in a scratch copy the model is edited as a realistic
bug would, everything is rebuilt, and each proof that no longer checks is replaced by an axiom
there.  A property theorem counts as failed when that axiom appears among its assumptions.  A
theorem that still proves although its claim became false is tightened.

## Simplifications

Stated at the definitions concerned; collected here.

* Not modelled: parsing of JSON text and file access (abstracted to their result), printing,
  `DEBUG_MODE` code, TBB thread-count control, exhaustion of memory, destructors of static objects
  at process exit.
* The 32-bit row count M*|SPLIT| and row indices derived from it do not wrap around.
* x86-64 baseline: no fused multiply-add, no excess precision; NaN payloads are not distinguished.
* libm's `pow` (real exponent) and `exp` are parameters of the binary instance.  Theorems that use
  their values are stated in exact reals.
* The order in which `std::normal_distribution` consumes generator output is not modelled; each
  sample is one element of an arbitrary stream.

## Properties

"Finding" properties, where the expectation one would have of the code is false, are proved as
`..._refuted` theorems or as positive characterisations of the actual behaviour; the manifest notes
say so.

| Property | Title | Status | Theorems (axioms) |
|---|---|---|---|
| C01 | Digital integer MVM is exact | proved | `C01_digital_int_exact` (-) |
| C02 | Digital BNN MVM is exact | proved | `C02_digital_bnn_exact` (-) |
| C03 | Digital TNN MVM is exact | proved | `C03_digital_tnn_exact` (-) |
| C04 | Choice of mapping mode is invisible digitally | proved | `C04_mode_invisible` (-) |
| C05 | Stored digital cells decode to the written weights | proved | `C05_cells_decode` (-) |
| C06 | A write changes only the written rectangle | proved | `C06_write_frame` (-), `C06_mvm_frame` (-) |
| C07 | MVM depends only on the last write | proved | `C07_last_write_only` (-) |
| C08 | The mat argument of exe_mvm is ignored | proved | `C08_mat_ignored` (-) |
| C09 | exe_mvm accumulates and frames res | proved | `C09_result_frame` (-), `C09_increment` (-), `C09_wrap_refuted` (R4) |
| C10 | Dimension guard | proved | `C10_guard` (-) |
| C11 | No crossbar, no effect | proved | `C11_no_crossbar` (-) |
| C12 | Operation counters over histories | proved | `C12_counters` (-), `C12_counters_step` (-) |
| C13 | Every accepted configuration obeys the support matrix | proved | `C13_support_matrix` (-), `C13_after_load` (-) |
| C14 | No-op updates are no-ops | proved | `C14_noop_update` (-), `C14_update_idempotent` (-) |
| C15 | Recreation policy of update_config | proved | `C15_update_keeps_crossbar` (-), `C15_update_recreates` (-) |
| C16 | Crossbar dimensions track the configuration | proved | `C16_getter_dimensions` (-) |
| C17 | No memory error in digital use | proved | `C17_digital_memory_safe` (-) |
| C18 | Finding: the resolution = -1 check tests the previous configuration | proved | `C18_stale_resolution` (-), `C18_resolution_check_refuted` (R4) |
| C19 | Finding: updating w_res alone does not reach the wire-resistance solver | proved | `C19_w_res_update_ignored` (-), `C19_w_res_null_refuted` (R4) |
| C20 | Finding: configuration leaks between set_config calls | proved | `C20_load_determines` (-), `C20_load_keeps` (-), `C20_read_disturb_leaks_refuted` (R4), `C20_profile_leaks_refuted` (R4) |
| C21 | Ideal analog MVM equals the digital MVM in exact arithmetic | proved | `C21_ideal_exact` (R4) |
| C22 | Finding: in single precision the ideal ADC can be off by one | proved | `C22_off_by_one_refuted` (R4) |
| C23 | Finding: analog MVM corrupts large accumulators | proved | `C23_loses_bits_refuted` (R4), `C23_undefined_refuted` (R4) |
| C24 | ADC transfer: range, levels and error | proved | `C24_transfer` (R4) |
| C25 | ADC transfer is monotone | proved | `C25_monotone_exact` (R4), `C25_monotone_single` (R4) |
| C26 | Symmetric ADC maps zero to zero and is odd off its thresholds | proved | `C26_zero_and_odd` (R4), `C26_odd_at_thresholds_refuted` (R4) |
| C27 | ADC is idempotent on its levels | proved | `C27_idempotent` (R4) |
| C28 | MAX calibration never clips the supported modes | proved | `C28_in_range` (R4), `C28_never_clips` (R4) |
| C29 | Finding: TNN_IV and TNN_V clip their own correction terms | proved | `C29_clips_refuted` (R4), `C29_clips_single_refuted` (R4) |
| C30 | Vector conversion is elementwise and schedule-independent | proved | `C30_any_schedule` (-), `C30_elementwise` (-), `C30_profiled` (-), `C30_missing_layer` (-) |
| C31 | Noise never makes currents negative and vanishes at zero sigma | proved | `C31_nonneg_exact` (R4), `C31_nonneg_single` (R4), `C31_quiet_exact` (R4), `C31_quiet` (-), `C31_lrs_rounded_refuted` (R4) |
| C32 | Finding: d2d_var has no effect | proved | `C32_d2d_ignored_refuted` (-) |
| C33 | Cycle-to-cycle noise is temporary | proved | `C33_temporary` (-) |
| C34 | Finding: integer modes with c2c_var lose their weights | proved | `C34_weights_lost_refuted` (-), `C34_terminates_refuted` (-), `C34_erased_refuted` (R4), `C34_zero_refuted` (R4) |
| C35 | Cycle counters count set-reset transitions | proved | `C35_cycles_count_resets` (-) |
| C36 | Read disturb only lowers conductance, monotonically | proved | `C36_factor_formula` (R4), `C36_factor_shape` (R4) |
| C37 | Read disturb state after k reads | proved | `C37_lrs` (-), `C37_lrs_exact` (R4), `C37_hrs` (-) |
| C38 | Software refresh restores the crossbar | proved | `C38_software` (-), `C38_nominal_exact` (R4) |
| C39 | Cell-based refresh keeps LRS cells within tolerance | proved | `C39_cell_based` (-), `C39_within_tolerance` (R4), `C39_refresh_count` (-) |
| C40 | Finding: half of the cells of BNN_V, TNN_IV and TNN_V never suffer read disturb | proved | `C40_second_array_refuted` (-), `C40_second_array_exact_refuted` (R4) |
| C41 | Out-of-bounds flag is sticky and exact | proved | `C41_flag` (-), `C41_new` (-), `C41_validity_exact` (R4) |
| C42 | Wire parasitics attenuate | proved | `C42_unique` (R2), `C42_range` (R2), `C42_zero` (R2), `C42_grows` (R2), `C42_shrinks` (R2), `C42_loss` (R2), `C42_limit` (R2), `C42_computed` (R4), `C65_kirchhoff` (R4) |
| C43 | Wire parasitics: memory safety boundary | proved | `C43_write_safe` (-), `C43_write_oob` (-), `C43_mvm_safe` (-), `C43_mvm_oob` (-), `C43_unwritten` (-) |
| C44 | Finding: integer rows beyond M are lost in the parasitic solver | proved | `C44_rows_dropped` (-) |
| C45 | Finding: dynamic effects do not reach the parasitic solver | proved | `C45_frozen` (-) |
| C46 | Profiling histogram conserves samples and isolates layers | proved | `C46_conserves` (-), `C46_in_range_counted` (R4), `C46_results_unchanged` (-) |
| C47 | Finding: full-scale currents overflow the histogram | proved | `C47_full_scale_refuted` (R4), `C47_reachable_refuted` (R4), `C47_label` (R4), `C47_label_whole_bin_refuted` (R4) |
| C48 | Sample count is schedule-independent, mean is not | proved | `C48_samples` (-), `C48_mean_refuted` (R4) |
| C49 | Emulation library computes the exact product | proved | `C49_exact` (-), `C49_callback` (-), `C49_others` (-) |
| C50 | Finding: verbose BNN/TNN crossbars terminate the process when replaced | proved | `C50_verbose_set_config_dies` (-), `C50_verbose_recreation_dies` (-) |
| C51 | Validation of weights and inputs per mode | proved | `C51_weight_rejected` (-), `C51_weight_accepted` (-), `C51_input_rejected` (-), `C51_input_accepted` (-), `C51_effective_on_domain` (-) |
| C52 | SPLIT must cover W_BIT, but this is not checked | proved | `C52_short_split_truncates` (-), `C52_long_split_ub` (-), `C52_split_checked_refuted` (R4) |
| C53 | Left shift of negative sums is undefined in C++17 | proved | `C53_no_shift_ub` (-), `C53_negative_row` (-), `C53_integer` (-), `C53_offset_row` (-), `C53_ternary` (-), `C53_shift_ub` (R4) |
| C54 | Finding: the Python mvm entry point is unguarded | proved | `C54_py_no_crossbar` (-), `C54_py_outside` (-), `C54_py_guarded` (-), `C54_py_tnn_iv_refuted` (R4) |
| C55 | set_config failure modes | proved | `C55_set_config_failures` (-) |
| C56 | Bit slicing of inputs is lossless and order-independent | proved | `C56_lossless` (-), `C56_any_schedule` (-) |
| C57 | Finding: read_disturb_update_freq = 0 divides by zero | proved | `C57_update_freq_zero` (-) |
| C58 | Finding: degenerate ADC resolutions are accepted | proved | `C58_high_resolution` (R4), `C58_one_level_refuted` (R4), `C58_resolution_one_refuted` (R4) |
| C59 | Reading a narrower matrix than was written | proved | `C59_narrow_mvm` (-) |
| C60 | Finding: a throwing update_config leaves an inconsistent simulator | proved | `C60_throwing_update` (-), `C60_rows_refuted` (-), `C60_no_write_refuted` (-), `C60_throwing_update_refuted` (R4) |
| C61 | Read disturb forgets device variation | proved | `C61_update_forgets` (-) |
| C62 | Finding: c2c_var hides read disturb from results | proved | `C62_hidden` (-), `C62_hidden_noise` (-) |
| C63 | TNN_IV/TNN_V cell-based mitigation ages rows that are not read | proved | `C63_unread_rows_refuted` (-) |
| C64 | A fine enough finite ADC is exact | proved | `C64_fine_exact` (R4) |
| C66 | Without dynamic effects an analog MVM has no memory | proved | `C66_memoryless` (-) |
| C65 | The parasitic solver computes Kirchhoff's currents of the written cells | proved | `C65_kirchhoff` (R4), `C65_w_res` (R4) |
| C67 | Analog calls without wire resistance are memory safe | proved | `C67_write_safe` (-), `C67_mvm_safe` (-) |
| C68 | A load stores what the document says and rejects exactly the unsupported documents | proved | `C68_load_stores_document` (-), `C68_load_rejects_exactly` (-) |
| C69 | An update is a reload of the merged document | proved | `C69_update_merges_document` (-), `C69_structural_update_is_reload` (-) |
| C70 | Wire resistance moves results by a bounded amount | proved | `C70_wire_error` (R4) |
| C71 | BNN_VI and TNN_I never reach full scale with wire resistance | proved | `C71_below_full_scale` (R4), `C71_too_small` (-) |
| C72 | Profiling counts exactly one sample per row and conversion | proved | `C72_records` (-), `C72_only_mvms` (-), `C72_range_kept` (-) |
| C73 | The histogram counts the converter's input currents | proved | `C73_bins` (R4) |
| C74 | Profiling is safe below full scale | proved | `C74_profiled_mvm` (R4) |
| C75 | Loading a configuration starts with fresh histograms | proved | `C75_reload_refuted` (R4) |
| C76 | Only well-typed documents are accepted | proved | `C76_lenient_load` (-), `C76_wrong_types_refuted` (R4), `C76_huge_fraction_ub` (-) |
| C77 | What digital products do with weights out of range | proved | `C77_wide_weights` (-), `C77_mode_visible_refuted` (R4) |
| C78 | What binary and ternary modes without a check take other numbers for | proved | `C78_odd_weights` (-), `C78_zero_weight_refuted` (R4), `C78_two_weight_refuted` (R4) |
| C79 | What the profile report says | proved | `C79_report` (R4), `C79_report_defined` (R4), `C79_report_undefined` (R4), `C79_variance` (R4), `C79_report_undefined_refuted` (R4), `C79_variance_refuted` (R4), `C79_lost_sample_refuted` (R4), `C79_empty_mean_refuted` (R4) |
| C80 | The reported mean is too high | proved | `C80_mean_bias` (R4), `C80_half_bin_refuted` (R4) |
| C81 | A digital crossbar is a memory with row sums | proved | `C81_memory` (-), `C81_zeros_refuted` (R4), `C81_rewrite_refuted` (R4) |
| C82 | An ideal analog crossbar is the same memory | proved | `C82_analog_memory` (R4) |
| C83 | A finite converter reads the same memory | proved | `C83_finite_memory` (R4) |
| C84 | Finding: switching wire resistance off leaves a short buffer | proved | `C84_wires_off` (-) |
| C85 | Finding: software refresh and wire resistance exclude each other in three modes | proved | `C85_refresh_refuted` (-), `C85_never_counted` (-), `C85_mvm_safe` (-), `C85_refresh_rearms` (-) |
| C86 | Finding: a file that does not parse takes effect later | proved | `C86_half_read_installed` (-), `C86_half_read_refuted` (R4) |
| C87 | Finding: unusable histogram bin sizes are accepted | proved | `C87_accepted` (-), `C87_zero_bins_refuted` (R4), `C87_bad_bins_refuted` (R4) |
| C88 | Finding: slices of width zero are accepted and make every analog MVM fail | proved | `C88_zero_width_refuted` (R4) |
| C89 | Finding: negative wire resistances are accepted and amplify currents | proved | `C89_negative_wire_refuted` (R4), `C89_accepted` (R4) |
| C90 | Power-of-two current steps make analog MVMs exact in single precision | proved | `C90_exact_single` (R4) |
