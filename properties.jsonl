{"id": "C01", "title": "Digital integer MVM is exact", "statement": "With digital_only and any of the six integer mapping modes, after cpy_mtrx(mat,m,n) returned 0, exe_mvm(res,vec,_,m,n) returns 0 and adds exactly sum_j mat[i*n+j]*vec[j] to res[i] for every i<m, for every weight and input that fits the mode's ranges, provided SPLIT adds up to W_BIT and |res[i]| plus n times the largest term of the mode (at most 2^(W_BIT+I_BIT)) fits int32; no undefined behaviour occurs on the way.", "quantifier": "every crossbar size, every SPLIT, W_BIT, I_BIT, every matrix and vector in range, every previous history of writes and MVMs", "why_tests_cant": "The input space (matrices x vectors x splits x sizes) is unbounded; tests check a few 3x3 matrices with one split.", "anchors": ["cpp/src/interface_pybind.cpp: exe_mvm", "cpp/src/interface_pybind.cpp: cpy_mtrx", "cpp/src/mapping/mapper.cpp: Mapper::d_write_diff, Mapper::d_write_offs", "cpp/src/mapping/int_mapper/int_i.cpp..int_v.cpp: d_mvm"]}
{"id": "C02", "title": "Digital BNN MVM is exact", "statement": "With digital_only and any of BNN_I..BNN_VI, for weights and inputs in {-1,+1}, cpy_mtrx followed by exe_mvm adds exactly the integer matrix-vector product to res and returns 0.", "quantifier": "every size m<=M, n<=N, every +-1 matrix and vector, every previous history", "why_tests_cant": "2^(m*n+n) cases per size and unboundedly many sizes.", "anchors": ["cpp/src/interface_pybind.cpp: exe_mvm", "cpp/src/interface_pybind.cpp: cpy_mtrx", "cpp/src/mapping/bnn_mapper/bnn_i.cpp..bnn_vi.cpp: d_write, d_mvm", "cpp/src/mapping/mapper.cpp: Mapper::d_write_diff_bnn"]}
{"id": "C03", "title": "Digital TNN MVM is exact", "statement": "With digital_only and any of TNN_I..TNN_V, for weights and inputs in {-1,0,+1}, cpy_mtrx followed by exe_mvm adds exactly the integer matrix-vector product to res and returns 0.", "quantifier": "every size m<=M, n<=N, every ternary matrix and vector, every previous history", "why_tests_cant": "3^(m*n+n) cases per size; TNN_V is not reached by the project's tests at all.", "anchors": ["cpp/src/interface_pybind.cpp: exe_mvm", "cpp/src/interface_pybind.cpp: cpy_mtrx", "cpp/src/mapping/tnn_mapper/tnn_i.cpp..tnn_v.cpp: d_write, d_mvm", "cpp/src/mapping/mapper.cpp: Mapper::d_write_diff_tnn, Mapper::d_write_tc_tnn"]}
{"id": "C04", "title": "Choice of mapping mode is invisible digitally", "statement": "Two digital simulators configured with different mapping modes whose ranges admit the same matrix and vector return the same result vector for the same cpy_mtrx/exe_mvm calls.", "quantifier": "every pair of modes, every pair of configurations, every common matrix and vector, every pair of histories", "why_tests_cant": "A relation between two runs over all inputs and mode pairs.", "anchors": ["cpp/src/interface_pybind.cpp: exe_mvm", "cpp/src/interface_pybind.cpp: cpy_mtrx", "cpp/src/mapping/mapper.cpp: Mapper::create_from_config"]}
{"id": "C05", "title": "Stored digital cells decode to the written weights", "statement": "After cpy_mtrx(mat,m,n) in an integer mode, the slices reported by get_gd_p/get_gd_m recombine (with the positional weights of SPLIT) to exactly mat; every slice lies in [0,2^SPLIT[s]) and in differential modes no cell pair is non-zero on both sides.", "quantifier": "every matrix in range, every SPLIT adding up to W_BIT", "why_tests_cant": "Round trip over all weights, bit widths and splits.", "anchors": ["cpp/src/interface_pybind.cpp: get_gd_p, get_gd_m", "cpp/src/interface_pybind.cpp: cpy_mtrx", "cpp/src/mapping/mapper.cpp: Mapper::d_write_diff, Mapper::d_write_offs"]}
{"id": "C06", "title": "A write changes only the written rectangle", "statement": "cpy_mtrx(mat,m,n) leaves every digital cell outside the first m (times number of slices) rows and n columns as it was, for all 17 modes, and exe_mvm never changes any digital cell.", "quantifier": "every mode, matrix, size, previous contents", "why_tests_cant": "A frame property over all states.", "anchors": ["cpp/src/interface_pybind.cpp: cpy_mtrx", "cpp/src/interface_pybind.cpp: exe_mvm", "cpp/src/mapping/mapper.cpp: d_write_*"]}
{"id": "C07", "title": "MVM depends only on the last write", "statement": "In a digital configuration, the value exe_mvm adds to res is a function of the last successfully written matrix and vec alone: earlier writes, earlier MVMs (of any size) and leftover scratch contents do not influence it.", "quantifier": "every history of cpy_mtrx/exe_mvm/update_config(non-recreating)/getter calls between the write and the MVM", "why_tests_cant": "Quantifies over all histories; internal scratch buffers persist between calls.", "anchors": ["cpp/src/interface_pybind.cpp: exe_mvm", "cpp/src/interface_pybind.cpp: cpy_mtrx", "cpp/src/xbar/crossbar.cpp: Crossbar::write, Crossbar::mvm"]}
{"id": "C08", "title": "The mat argument of exe_mvm is ignored", "statement": "exe_mvm uses the stored weights only: two calls that differ only in their mat argument have identical effects, in digital and analog configurations.", "quantifier": "every state, configuration, float semantics, arguments", "why_tests_cant": "Non-interference over all argument values.", "anchors": ["cpp/src/interface_pybind.cpp: exe_mvm", "cpp/src/xbar/crossbar.cpp: Crossbar::mvm"]}
{"id": "C09", "title": "exe_mvm accumulates and frames res", "statement": "exe_mvm adds to the caller's result buffer: entries at index >= m are untouched, and in digital configurations the increment is independent of the initial contents of res (modulo 2^32 in I_UINT_W_OFFS and TNN_V, whose last subtraction wraps silently).", "quantifier": "every mode, state, result buffer, sizes", "why_tests_cant": "All buffers and all offsets.", "anchors": ["cpp/src/interface_pybind.cpp: exe_mvm"]}
{"id": "C10", "title": "Dimension guard", "statement": "cpy_mtrx and exe_mvm called with any 32-bit m,n (including negative ones) either return -1 and change nothing at all, or satisfy 0<=m<=M and 0<=n<=N.", "quantifier": "every pair of int32 dimensions, every state", "why_tests_cant": "2^64 argument pairs; relies on the signed/unsigned comparison rules.", "anchors": ["cpp/src/interface_pybind.cpp: exe_mvm", "cpp/src/interface_pybind.cpp: cpy_mtrx"]}
{"id": "C11", "title": "No crossbar, no effect", "statement": "Before a crossbar exists, exe_mvm, cpy_mtrx and update_config return -1 and change nothing; the getters terminate the process.", "quantifier": "every argument", "why_tests_cant": "Every argument combination in the uninitialised state.", "anchors": ["cpp/src/interface_pybind.cpp: exe_mvm", "cpp/src/interface_pybind.cpp: cpy_mtrx", "cpp/src/interface_pybind.cpp: update_config, check_xbar"]}
{"id": "C12", "title": "Operation counters over histories", "statement": "Since the crossbar was created, get_write_xbar_counter is the number of successful cpy_mtrx calls, get_mvm_counter the number of successful exe_mvm calls, and get_read_num the number of exe_mvm calls since the last write or software refresh; rejected calls and getters do not count.", "quantifier": "every sequence of API calls", "why_tests_cant": "All histories.", "anchors": ["cpp/src/interface_pybind.cpp: get_write_xbar_counter, get_mvm_counter, get_read_num", "cpp/src/xbar/crossbar.cpp: Crossbar::write, Crossbar::mvm"]}
{"id": "C13", "title": "Every accepted configuration obeys the support matrix", "statement": "If set_config/update_config accept a configuration (the process survives), then M,N>0; for analog ones HRS,LRS>0, the ADC type suits the mapping mode, read disturb is not combined with integer modes, V_read<0 where needed, mitigation parameters are in range; TNN_IV/TNN_V have W_BIT=2, SPLIT=[1,1]; integer modes have positive bit widths.", "quantifier": "every JSON document and every previous configuration", "why_tests_cant": "All JSON documents.", "anchors": ["cpp/src/helper/config.cpp: Config::apply_config, getConfigValue"]}
{"id": "C14", "title": "No-op updates are no-ops", "statement": "update_config with values equal to the current ones returns 0 and leaves configuration, crossbar contents, counters and profiles untouched; applying the same update twice equals applying it once.", "quantifier": "every configuration, every update object, every state", "why_tests_cant": "All JSON updates and all states.", "anchors": ["cpp/src/interface_pybind.cpp: update_config", "cpp/src/helper/config.cpp: Config::update_cfg"]}
{"id": "C15", "title": "Recreation policy of update_config", "statement": "A successful update_config that changes none of the recreation keys keeps the crossbar with all stored weights and counters; one that changes a recreation key replaces it by a fresh crossbar with zero cells and zero counters.", "quantifier": "every configuration, update, state", "why_tests_cant": "All updates x states.", "anchors": ["cpp/src/interface_pybind.cpp: update_config", "cpp/inc/helper/config.h: recreation_keys"]}
{"id": "C16", "title": "Crossbar dimensions track the configuration", "statement": "Along any sequence of API calls none of which throws, whenever a crossbar exists the matrices returned by the getters have M*|SPLIT| rows and N columns of the current configuration.", "quantifier": "every sequence of API calls, every configuration sequence", "why_tests_cant": "All histories of configuration changes.", "anchors": ["cpp/src/interface_pybind.cpp: set_config, update_config, get_gd_p", "cpp/src/mapping/mapper.cpp: Mapper::Mapper"]}
{"id": "C17", "title": "No memory error in digital use", "statement": "In a digital configuration, guarded cpy_mtrx/exe_mvm calls with correctly sized caller buffers never access memory out of bounds and never terminate the process on in-range data, after any history.", "quantifier": "every history of guarded calls, all sizes", "why_tests_cant": "Absence of UB over all histories.", "anchors": ["cpp/src/interface_pybind.cpp: exe_mvm", "cpp/src/interface_pybind.cpp: cpy_mtrx"]}
{"id": "C18", "title": "Finding: the resolution = -1 check tests the previous configuration", "statement": "A user expects an ADC resolution of -1 to be rejected for a finite ADC and valid resolutions to be accepted. Neither holds: a first configuration with resolution -1 is accepted, and a following perfectly valid configuration then terminates the process.", "quantifier": "existence of a two-step configuration history", "why_tests_cant": "Needs two loads in one process with a particular first document.", "anchors": ["cpp/src/helper/config.cpp: Config::apply_config"]}
{"id": "C19", "title": "Finding: updating w_res alone does not reach the wire-resistance solver", "statement": "A user expects update_config({\"w_res\": x}) to change the simulated wire resistance. It does not: the solver keeps the old value until some other recreation key changes, and switching from w_res=0 to a non-zero value makes the next exe_mvm dereference a null pointer.", "quantifier": "every new non-zero w_res, every state with wire parasitics on; existence for the null dereference", "why_tests_cant": "The effect depends on the configuration history.", "anchors": ["cpp/inc/helper/config.h: recreation_keys", "cpp/src/mapping/mapper.cpp: Mapper::Mapper", "cpp/src/xbar/parasitics.cpp: ParasiticSolver::ParasiticSolver"]}
{"id": "C20", "title": "Finding: configuration leaks between set_config calls", "statement": "A user expects set_config(file) to determine the configuration. It does not: keys skipped by the branch taken keep values of the previous configuration (for example adc_profile stays on when switching to INF_ADC, and read_disturb stays on when switching to a digital configuration).", "quantifier": "existence of two histories ending in the same set_config with different configurations", "why_tests_cant": "Needs specific sequences of loads.", "anchors": ["cpp/src/helper/config.cpp: Config::apply_config"]}
{"id": "C21", "title": "Ideal analog MVM equals the digital MVM in exact arithmetic", "statement": "With INF_ADC, no noise, no read disturb, no parasitics and HRS<>LRS, the analog exe_mvm computes, in exact real arithmetic, exactly the same result as the integer product, for all 17 mapping modes.", "quantifier": "every mode, size, matrix, vector in range, every HRS<>LRS, every history of writes and MVMs", "why_tests_cant": "All sizes, conductances and data; tests compare a handful of cases with a tolerance hidden by rounding.", "anchors": ["cpp/src/interface_pybind.cpp: exe_mvm", "cpp/src/mapping/int_mapper/*.cpp: a_mvm", "cpp/src/mapping/bnn_mapper/*.cpp: a_mvm", "cpp/src/mapping/tnn_mapper/*.cpp: a_mvm", "cpp/src/mapping/mapper.cpp: a_write_*"]}
{"id": "C22", "title": "Finding: in single precision the ideal ADC can be off by one", "statement": "A user expects an INF_ADC simulation without any non-ideality to equal the integer product. In IEEE single precision it does not: there are HRS, LRS and a 1x1 problem with weight 1 and input 1 whose result is 0, because the result is truncated, not rounded.", "quantifier": "existence of configuration and input (computed in bit-exact binary32)", "why_tests_cant": "Depends on the exact rounding of LRS-HRS reciprocals; project tests use only LRS=30, HRS=5 or 10.", "anchors": ["cpp/src/xbar/adc.cpp: ADCInfinite::convert", "cpp/src/mapping/bnn_mapper/bnn_vi.cpp: a_mvm"]}
{"id": "C23", "title": "Finding: analog MVM corrupts large accumulators", "statement": "A user expects an analog MVM with an all-zero contribution to leave res unchanged. It does not when |res| > 2^24 (the accumulator goes through single precision), and close to INT32_MAX the conversion back is undefined behaviour.", "quantifier": "existence of an accumulator value (binary32)", "why_tests_cant": "Needs accumulator values beyond 2^24.", "anchors": ["cpp/src/mapping/bnn_mapper/bnn_vi.cpp: a_mvm", "cpp/src/mapping/int_mapper/int_iv.cpp: a_mvm"]}
{"id": "C24", "title": "ADC transfer: range, levels and error", "statement": "A finite ADC of resolution r>=2 maps every input current to one of at most 2^r (unsigned) or 2^r-1 (symmetric) reconstruction levels inside its current range; for currents inside the range the reconstruction error is at most half a step; currents outside are clipped to the end levels.", "quantifier": "every current, resolution, range (exact arithmetic)", "why_tests_cant": "Continuum of currents.", "anchors": ["cpp/src/xbar/adc.cpp: ADCUnsigned::convert, ADCSigned::ADCSigned, ADC::clip"]}
{"id": "C25", "title": "ADC transfer is monotone", "statement": "For a fixed layer, scale and offset, a larger input current never yields a smaller ADC output; this holds in exact arithmetic for every non-negative scale and in IEEE single precision for every positive scale (infinite currents included) whenever the range is finite and its step positive.", "quantifier": "every pair of finite currents, every finite ADC configuration", "why_tests_cant": "All pairs of floats.", "anchors": ["cpp/src/xbar/adc.cpp: ADCUnsigned::convert"]}
{"id": "C26", "title": "Symmetric ADC maps zero to zero and is odd off its thresholds", "statement": "SYM_RANGE_ADC with calibration MAX returns 0 for current 0 and convert(-x) = -convert(x) for every current that is not exactly a decision threshold (exact arithmetic). A user expects oddness everywhere; at the thresholds it fails for every configuration, because codes are non-negative and halves round up: half a step gives one step, minus half a step gives 0.", "quantifier": "every current, every resolution r>=2, every LRS>HRS, every scale", "why_tests_cant": "Continuum of currents.", "anchors": ["cpp/src/xbar/adc.cpp: ADCSigned"]}
{"id": "C27", "title": "ADC is idempotent on its levels", "statement": "Converting a reconstruction level again reproduces it: quantisation is a projection.", "quantifier": "every current and resolution (exact arithmetic)", "why_tests_cant": "Continuum of currents.", "anchors": ["cpp/src/xbar/adc.cpp: ADCUnsigned::convert"]}
{"id": "C28", "title": "MAX calibration never clips the supported modes", "statement": "With adc_calib_mode MAX and no noise, every current presented to the ADC by the differential modes (SYM_RANGE_ADC) and by I_UINT_W_OFFS, BNN_III, BNN_IV, BNN_V (POS_RANGE_ONLY_ADC) lies inside the ADC range, so clipping never alters it.", "quantifier": "every mode, matrix, vector, size, 0<HRS<=LRS (exact arithmetic)", "why_tests_cant": "All data patterns.", "anchors": ["cpp/src/xbar/adc.cpp: maximum_max_current, maximum_min_current", "cpp/src/mapping/*: a_mvm"]}
{"id": "C29", "title": "Finding: TNN_IV and TNN_V clip their own correction terms", "statement": "A user expects POS_RANGE_ONLY_ADC (the only finite ADC accepted) to be as harmless for TNN_IV/TNN_V as for the BNN modes. It is not: the correction offset pushes a conversion below zero where it is clipped, so for all-zero weights and all-one inputs the result is wrong at every resolution.", "quantifier": "existence of inputs; for every resolution (exact arithmetic) and in binary32", "why_tests_cant": "Shows for larger vectors only; the tests use 3 inputs.", "anchors": ["cpp/src/mapping/tnn_mapper/tnn_iv.cpp: a_mvm", "cpp/src/mapping/tnn_mapper/tnn_v.cpp: a_mvm"]}
{"id": "C30", "title": "Vector conversion is elementwise and schedule-independent", "statement": "Converting a vector of currents equals converting each current on its own, whatever order the parallel algorithm visits the elements in, also in place; a layer missing from the calibration dictionary terminates the process.", "quantifier": "every execution order, every vector", "why_tests_cant": "All interleavings of the parallel algorithm.", "anchors": ["cpp/src/xbar/adc.cpp: ADC::convert, ADC::get_currents"]}
{"id": "C31", "title": "Noise never makes currents negative and vanishes at zero sigma", "statement": "In BNN/TNN modes every current stored by cpy_mtrx is non-negative for every noise sample sequence, and with HRS_NOISE=LRS_NOISE=0 it is exactly HRS or LRS and independent of the random generator.", "quantifier": "every noise sequence, matrix, configuration", "why_tests_cant": "Random generator outputs cannot be enumerated.", "anchors": ["cpp/src/mapping/mapper.cpp: Mapper::add_gaussian_noise, a_write_p_m_bnn_tnn, a_write_p_bnn"]}
{"id": "C32", "title": "Finding: d2d_var has no effect", "statement": "A user expects d2d_var=false to switch device-to-device variation off. It does not: the state written by cpy_mtrx and the results of exe_mvm are the same for d2d_var true and false in BNN/TNN modes.", "quantifier": "every state, history and noise sequence", "why_tests_cant": "Noise is random, so a test cannot observe the absence of a switch.", "anchors": ["cpp/src/helper/config.cpp: d2d_var", "cpp/src/mapping/mapper.cpp: a_write_p_m_bnn_tnn"]}
{"id": "C33", "title": "Cycle-to-cycle noise is temporary", "statement": "In BNN/TNN modes with c2c_var and no read disturb, after exe_mvm the stored currents are again exactly those the last write programmed, for every noise sequence.", "quantifier": "every noise sequence, MVM sequence, state", "why_tests_cant": "Random generator outputs.", "anchors": ["cpp/src/mapping/mapper.cpp: a_add_c2c_var, a_remove_c2c_var", "cpp/src/xbar/crossbar.cpp: Crossbar::mvm"]}
{"id": "C34", "title": "Finding: integer modes with c2c_var lose their weights", "statement": "A user expects an accepted configuration to keep simulating the written weights. An integer mode with c2c_var=true is accepted, but the next exe_mvm either terminates the process or overwrites the programmed currents of the covered cells with HRS. With one cell per weight nothing of the weights is left: every MVM of a mode that subtracts two arrays returns the result vector it was given, as if all weights were zero.", "quantifier": "every state of such a configuration, all weights, inputs and sizes (exact arithmetic, ideal converter and no noise for the erased results); existence of a configuration and data whose results are right without and zero with c2c_var", "why_tests_cant": "Combination of flags untested.", "anchors": ["cpp/src/helper/config.cpp: apply_config", "cpp/src/mapping/mapper.cpp: a_add_c2c_var, a_remove_c2c_var, a_write_p_m"]}
{"id": "C35", "title": "Cycle counters count set-reset transitions", "statement": "With read disturb, without refresh, get_cycles_p/get_cycles_m report for every cell the number of writes that changed that cell from 1 to 0 since the crossbar was created.", "quantifier": "every history of writes and MVMs, every cell", "why_tests_cant": "All histories.", "anchors": ["cpp/src/xbar/crossbar.cpp: Crossbar::write", "cpp/src/xbar/read_disturb.cpp: ReadDisturb::update_cycles"]}
{"id": "C36", "title": "Read disturb only lowers conductance, monotonically", "statement": "The read-disturb factor lies in (0,1], is 1 before the transition time, never increases with more reads, and never increases with more set-reset cycles inside the model's validity range (exact arithmetic).", "quantifier": "every number of reads and cycles, every V_read<0, t_read>0", "why_tests_cant": "Unbounded parameters.", "anchors": ["cpp/src/xbar/read_disturb.cpp: calc_G0_scaling_factor, calc_transition_time"]}
{"id": "C37", "title": "Read disturb state after k reads", "statement": "With mitigation OFF, after any number of MVMs since the last write, at each update point every LRS cell of the positive array (and of the negative array in differential modes) carries LRS times the factor for the current number of consecutive reads and that cell's cycle count; HRS cells keep their programmed current.", "quantifier": "every history, every cell, every float semantics", "why_tests_cant": "All histories.", "anchors": ["cpp/src/mapping/mapper.cpp: rd_update_conductance", "cpp/src/xbar/crossbar.cpp: Crossbar::mvm"]}
{"id": "C38", "title": "Software refresh restores the crossbar", "statement": "With mitigation SOFTWARE and zero noise, an MVM that triggers a refresh leaves all currents at their nominal values, resets the read counter, increments the refresh counter once and the cell refresh counter and cycle counts once per LRS cell.", "quantifier": "every state that triggers a refresh", "why_tests_cant": "All states.", "anchors": ["cpp/src/xbar/crossbar.cpp: Crossbar::mvm", "cpp/src/mapping/mapper.cpp: rd_check_software_refresh"]}
{"id": "C39", "title": "Cell-based refresh keeps LRS cells within tolerance", "statement": "With mitigation CELL_BASED and zero LRS noise, after an MVM at an update point every LRS cell covered by the read-disturb model is within the configured tolerance of LRS, and every cell that was outside got exactly one extra cycle and a zero read count.", "quantifier": "every state and history (exact arithmetic)", "why_tests_cant": "All states.", "anchors": ["cpp/src/mapping/mapper.cpp: rd_cell_based_refresh", "cpp/src/xbar/crossbar.cpp: Crossbar::mvm"]}
{"id": "C40", "title": "Finding: half of the cells of BNN_V, TNN_IV and TNN_V never suffer read disturb", "statement": "A user expects every LRS cell that takes part in an MVM to degrade. In BNN_V, TNN_IV and TNN_V the second array (which stores weights and is read) is never degraded nor refreshed, whatever the history.", "quantifier": "every history of MVMs in these modes", "why_tests_cant": "Absence of an effect over all histories.", "anchors": ["cpp/src/mapping/bnn_mapper/bnn_v.cpp: MapperBnnV", "cpp/src/mapping/tnn_mapper/tnn_iv.cpp, tnn_v.cpp: constructors", "cpp/src/mapping/mapper.cpp: rd_update_conductance"]}
{"id": "C41", "title": "Out-of-bounds flag is sticky and exact", "statement": "get_rd_run_out_of_bounds is false until a read-disturb evaluation is made for a cycle count outside the model's validity and true ever after until the crossbar is recreated.", "quantifier": "every history", "why_tests_cant": "All histories.", "anchors": ["cpp/src/xbar/read_disturb.cpp: calc_transition_time"]}
{"id": "C42", "title": "Wire parasitics attenuate", "statement": "The column current computed with wire resistance lies between 0 and the ideal current, equals 0 for an all-zero input, grows with every cell conductance and shrinks with wire resistance, and tends to the ideal current as the resistance goes to 0 (exact arithmetic).", "quantifier": "every crossbar size, conductance matrix, input, wire resistance > 0", "why_tests_cant": "Continuum of values, all sizes.", "anchors": ["cpp/src/xbar/parasitics.cpp: compute_currents"]}
{"id": "C43", "title": "Wire parasitics: memory safety boundary", "statement": "With parasitics on, exe_mvm/cpy_mtrx within the documented guard can still access memory out of bounds: exactly when the encoded matrix does not fit (2n>N for BNN_V, BNN_VI, TNN_I; m*|SPLIT|>M for integer modes; 2m>M for TNN_IV, TNN_V), and exe_mvm before the first cpy_mtrx always does.", "quantifier": "every size; both directions of the boundary", "why_tests_cant": "All sizes; out-of-bounds writes are often silent.", "anchors": ["cpp/src/xbar/parasitics.cpp: w_enc_double_row, w_enc_quad, o_enc_single, o_enc_double, compute_currents"]}
{"id": "C44", "title": "Finding: integer rows beyond M are lost in the parasitic solver", "statement": "A user expects the solver to use the programmed currents. Rows with index >= M of the sliced matrix are never copied: their conductance is the constant HRS.", "quantifier": "every integer configuration with more than one slice", "why_tests_cant": "Only visible when m*|SPLIT| > M.", "anchors": ["cpp/src/xbar/parasitics.cpp: set_conductance_matrix"]}
{"id": "C45", "title": "Finding: dynamic effects do not reach the parasitic solver", "statement": "A user combining parasitics with read disturb or cycle-to-cycle noise expects results to reflect them. With parasitics on, the value of exe_mvm depends only on the currents of the last array write; later read disturb or c2c noise never changes it.", "quantifier": "every history of MVMs without software refresh, every noise sequence", "why_tests_cant": "Absence of an effect over all histories.", "anchors": ["cpp/src/xbar/parasitics.cpp: set_conductance_matrix", "cpp/src/xbar/crossbar.cpp: Crossbar::mvm"]}
{"id": "C46", "title": "Profiling histogram conserves samples and isolates layers", "statement": "Profiling a vector adds exactly its length to the sample count of the named layer's histogram and leaves all other layers' histograms unchanged; currents at least one bin below full scale can always be counted; an MVM that succeeds with profiling gives the same results and crossbar without it.", "quantifier": "every vector, layer name, previous profile", "why_tests_cant": "All profiles.", "anchors": ["cpp/src/helper/histogram.cpp: BinnedHistogram::update", "cpp/src/xbar/adc.cpp: profile_inputs"]}
{"id": "C47", "title": "Finding: full-scale currents overflow the histogram", "statement": "A user expects profiling of a current inside the ADC range to be safe. The full-scale current has bin index num_bins and is written out of bounds, whatever was counted before. The reported bin label exceeds the counted current by between zero and a whole bin, and the whole bin is attained.", "quantifier": "existence; for every histogram with at least one bin (exact arithmetic), and a concrete reachable MVM in binary32", "why_tests_cant": "Needs a full-scale column.", "anchors": ["cpp/src/helper/histogram.cpp: BinnedHistogram::BinnedHistogram, BinnedHistogram::update"]}
{"id": "C48", "title": "Sample count is schedule-independent, mean is not", "statement": "get_samples (a parallel reduction of integers) gives the same value for every reduction order and grouping; the parallel float reduction of get_mean does not.", "quantifier": "every reduction tree and permutation; existence for the mean", "why_tests_cant": "All schedules.", "anchors": ["cpp/src/helper/histogram.cpp: get_samples, get_mean"]}
{"id": "C49", "title": "Emulation library computes the exact product", "statement": "Without a callback, the emulated exe_mvm adds the exact integer product to res (no overflow given), returns 0 and touches nothing else; with a callback it returns 0 whatever the callback returns.", "quantifier": "every size, matrix, vector, callback", "why_tests_cant": "All inputs.", "anchors": ["cpp/src/interface_emu.cpp: exe_mvm"]}
{"id": "C50", "title": "Finding: verbose BNN/TNN crossbars terminate the process when replaced", "statement": "A user expects verbose=true only to print. Replacing (or destroying) any crossbar while verbose is set and the current mode is a BNN or TNN mode terminates the process with failure.", "quantifier": "every such state, every set_config and recreating update_config", "why_tests_cant": "Process death in a destructor.", "anchors": ["cpp/src/xbar/crossbar.cpp: Crossbar::~Crossbar"]}
{"id": "C51", "title": "Validation of weights and inputs per mode", "statement": "An out-of-domain weight terminates the process in BNN_I, BNN_II, BNN_V, BNN_VI, TNN_I, TNN_II, TNN_III (provided the magnitudes times n fit int32, so that the running row sum cannot overflow first) and is silently accepted by digital configurations in BNN_III, BNN_IV, TNN_IV, TNN_V. For digital configurations an out-of-domain input terminates the process in BNN_III..BNN_VI, TNN_I, TNN_IV, TNN_V and is silently accepted in BNN_I, BNN_II, TNN_II, TNN_III, where the product is then computed with an effective input that is the input itself on the domain.", "quantifier": "every matrix/vector containing at least one out-of-domain entry, every size", "why_tests_cant": "All invalid inputs.", "anchors": ["cpp/src/interface_pybind.cpp: cpy_mtrx", "cpp/src/interface_pybind.cpp: exe_mvm", "cpp/src/mapping/mapper.cpp: d_write_diff_bnn, d_write_diff_tnn, d_write_tc_tnn"]}
{"id": "C52", "title": "SPLIT must cover W_BIT, but this is not checked", "statement": "A configuration whose SPLIT adds up to less than W_BIT is accepted and silently drops the low bits of every weight (the stored magnitude is the weight with its low W_BIT-sum bits cleared); one adding up to more than W_BIT is accepted and makes cpy_mtrx undefined behaviour.", "quantifier": "every such configuration, every matrix", "why_tests_cant": "All configurations.", "anchors": ["cpp/src/helper/config.cpp: apply_config", "cpp/src/mapping/mapper.cpp: Mapper::Mapper, d_write_diff"]}
{"id": "C53", "title": "Left shift of negative sums is undefined in C++17", "statement": "Under the strict C++17 rules (the project's language level) the digital MVM of the differential integer modes executes undefined behaviour exactly when a negative number is shifted left: some slice of the weights has a negative product with the inputs as the mode applies them, or (I_OFFS_W_DIFF) a row of the matrix has a negative sum. This happens for every negative row of the product, but also for positive ones. TNN_II..TNN_V do exactly when some pair of weight and input has a product that is shifted as a negative number. All of them return the exact product otherwise. I_UINT_W_OFFS, all BNN modes and TNN_I never do and return the exact product. An analog MVM of I_OFFS_W_DIFF shifts the row sums too, so it never returns when a row of the matrix has a negative sum.", "quantifier": "every in-range matrix, input and accumulator of the affected modes, with and without such a slice or pair; all for the unaffected modes", "why_tests_cant": "Compilers usually hide it.", "anchors": ["cpp/src/mapping/int_mapper/*.cpp: d_mvm", "cpp/src/mapping/tnn_mapper/*.cpp: d_mvm"]}
{"id": "C54", "title": "Finding: the Python mvm entry point is unguarded", "statement": "A user expects acs_py.mvm to reject what exe_mvm rejects. It does not: without a crossbar or with dimensions exceeding the cell arrays, it is undefined behaviour; on dimensions exe_mvm accepts, both behave identically; in TNN_IV, which has two rows of cells per row of the crossbar, rows beyond M that exe_mvm rejects are answered.", "quantifier": "every state and argument", "why_tests_cant": "Undefined behaviour.", "anchors": ["cpp/src/interface_pybind.cpp: exe_mvm_pb"]}
{"id": "C55", "title": "set_config failure modes", "statement": "set_config without any configuration source silently builds a fresh crossbar from the previous configuration, losing stored weights; after a file that cannot be parsed an exception leaves no crossbar, so later calls return -1.", "quantifier": "every state", "why_tests_cant": "All previous states.", "anchors": ["cpp/src/interface_pybind.cpp: set_config", "cpp/src/helper/config.cpp: load_cfg"]}
{"id": "C56", "title": "Bit slicing of inputs is lossless and order-independent", "statement": "The bit planes an MVM applies recombine to the input value for every input in range, and the parallel slicing gives the same planes for every execution order.", "quantifier": "every input, bit width and schedule", "why_tests_cant": "All inputs and schedules.", "anchors": ["cpp/src/mapping/mapper.cpp: Mapper::slice_vd"]}
{"id": "C57", "title": "Finding: read_disturb_update_freq = 0 divides by zero", "statement": "A user expects an invalid update frequency to be rejected. Zero is accepted and the first MVM is undefined behaviour (modulo by zero).", "quantifier": "every accepted read-disturb configuration with frequency 0", "why_tests_cant": "Undefined behaviour.", "anchors": ["cpp/src/helper/config.cpp: apply_config", "cpp/src/xbar/crossbar.cpp: Crossbar::mvm"]}
{"id": "C58", "title": "Finding: degenerate ADC resolutions are accepted", "statement": "A user expects unusable resolutions to be rejected. SYM_RANGE_ADC with resolution 1 and POS_RANGE_ONLY_ADC with resolution 0 divide the range by zero steps: both are accepted, and no analog MVM ever returns a result (the conversion yields NaN and the store into the result is an undefined float-to-int conversion). Resolutions above 30 overflow the step count while the crossbar is built.", "quantifier": "every reachable state, mode, matrix, input, noise and option for the single-level converters; every configuration with resolution > 30", "why_tests_cant": "Undefined behaviour.", "anchors": ["cpp/src/xbar/adc.cpp: ADC::ADC, ADCSigned"]}
{"id": "C59", "title": "Reading a narrower matrix than was written", "statement": "exe_mvm with the row count of the last write but fewer columns gives the product with the truncated matrix in the modes without stored row sums, but not in BNN_I, BNN_II, TNN_III and I_OFFS_W_DIFF, where the full row sum is still subtracted.", "quantifier": "every matrix/vector for the positive part; the exact error term for the others", "why_tests_cant": "All sizes.", "anchors": ["cpp/src/interface_pybind.cpp: exe_mvm", "cpp/src/mapping/bnn_mapper/bnn_i.cpp, bnn_ii.cpp", "cpp/src/mapping/tnn_mapper/tnn_iii.cpp", "cpp/src/mapping/int_mapper/int_ii.cpp"]}
{"id": "C60", "title": "Finding: a throwing update_config leaves an inconsistent simulator", "statement": "A user who catches the exception of update_config expects the old configuration or none. An update throws only if it leads to the analog mode I_TC_W_DIFF with wire resistance. Then the new settings and document stay in force together with the old crossbar: matrices with more rows than the old crossbar can no longer be written (out of bounds behind the size guard), and if the old crossbar has no wire model no matrix can be written at all.", "quantifier": "every state with a crossbar, every update that throws, all matrices and sizes (12 modes with stored row sums for the row clause); existence of such call sequences", "why_tests_cant": "Needs exception handling plus a later call.", "anchors": ["cpp/src/interface_pybind.cpp: update_config", "cpp/src/xbar/parasitics.cpp: ParasiticSolver::ParasiticSolver"]}
{"id": "C61", "title": "Read disturb forgets device variation", "statement": "At a read-disturb update every LRS cell's current becomes a function of LRS and its counters only, so programmed device-to-device noise of LRS cells is erased by the first update.", "quantifier": "every noise sequence, every state", "why_tests_cant": "Random noise.", "anchors": ["cpp/src/mapping/mapper.cpp: rd_update_conductance"]}
{"id": "C62", "title": "Finding: c2c_var hides read disturb from results", "statement": "A user expects degraded cells to influence MVM results with c2c_var on. With c2c_var the MVM always starts from the programmed currents, so results with zero sigma equal those of an undisturbed crossbar forever.", "quantifier": "every history of MVMs, every noise sequence", "why_tests_cant": "Absence of an effect over all histories.", "anchors": ["cpp/src/mapping/mapper.cpp: a_add_c2c_var", "cpp/src/xbar/crossbar.cpp: Crossbar::mvm"]}
{"id": "C63", "title": "TNN_IV/TNN_V cell-based mitigation ages rows that are not read", "statement": "A user expects the consecutive-read counters of CELL_BASED mitigation to count only reads of the rows an MVM uses. In TNN_IV and TNN_V an MVM of m rows also counts a read for rows m..2m-1, so LRS cells that were never read degrade and are refreshed.", "quantifier": "every reachable state, every cell in these rows", "why_tests_cant": "needs all matrix sizes, all update points and all earlier histories; the affected rows are outside the region a test would inspect", "anchors": ["cpp/src/xbar/read_disturb.cpp", "cpp/src/xbar/crossbar.cpp"]}
{"id": "C64", "title": "A fine enough finite ADC is exact", "statement": "With MAX calibration, no noise, no read disturb and no parasitics, a finite ADC gives exactly the integer product as soon as half of its step, multiplied by every factor by which the digital part scales a reading, is less than half a unit (modes other than I_UINT_W_OFFS, BNN_III, BNN_IV, TNN_IV, TNN_V; exact arithmetic).", "quantifier": "every other mode, resolution, size, matrix, vector in range, 0<HRS<LRS, every history of quiet calls", "why_tests_cant": "All sizes, data and resolutions.", "anchors": ["cpp/src/xbar/adc.cpp: SymADC, PosADC, convert", "cpp/src/mapping/*: a_mvm"]}
{"id": "C66", "title": "Without dynamic effects an analog MVM has no memory", "statement": "Without read disturb and cycle-to-cycle noise, no history of MVMs (through either interface, of any shape, successful or refused) and getters changes the answer of a later analog MVM, although all of them share scratch vectors; without profiling even the way a later call fails is unchanged.", "quantifier": "every mode, configuration without read_disturb and c2c_var (with or without parasitics and any ADC), every reachable state, history and later MVM, any arithmetic", "why_tests_cant": "All histories and states; stale scratch data shows up only for special sequences of shapes.", "anchors": ["cpp/src/mapping/*: a_mvm", "cpp/src/xbar/crossbar.cpp: Crossbar::mvm", "cpp/src/xbar/parasitics.cpp: compute_currents"]}
{"id": "C65", "title": "The parasitic solver computes Kirchhoff's currents of the written cells", "statement": "After cpy_mtrx of a valid matrix that fits, Parasitics::compute_currents returns for every output the current that Kirchhoff's current law determines for its column (or the difference of the currents of its two columns), built from the written cells, the rows the input drives, V_read and w_res, with the wiring of the mode (exact arithmetic).", "quantifier": "every mode with a solver, reachable state with positive wire resistance, matrix, input, and size that fits", "why_tests_cant": "All sizes, conductances and inputs; no test checks the solver against a physical specification.", "anchors": ["cpp/src/xbar/parasitics.cpp: set_conductance, compute_currents", "cpp/inc/xbar/parasitics.h: encodings"]}
{"id": "C67", "title": "Analog calls without wire resistance are memory safe", "statement": "In an analog crossbar without wire resistance, cpy_mtrx and exe_mvm calls that pass the size guard and whose buffers are long enough never access memory out of bounds, dereference null or throw, whatever the values (profiling ADCs are C20).", "quantifier": "every mode, reachable state with non-empty SPLIT, values, sizes, noise and read-disturb settings, any arithmetic", "why_tests_cant": "All states, shapes and values.", "anchors": ["cpp/src/mapping/*: a_write, a_mvm", "cpp/src/xbar/crossbar.cpp: write, mvm"]}
{"id": "C68", "title": "A load stores what the document says and rejects exactly the unsupported documents", "statement": "set_config of a document whose entries have the right JSON types stores in every setting the value the document gives for it, or the documented default when the entry is optional and missing (a wire resistance of 0 switches parasitics off), and keeps the document as the base of later updates. Provided the previous resolution is not -1 and destroying the old crossbar is harmless, it terminates the process exactly when no supported configuration matches the document.", "quantifier": "every well-typed document, every previous state, any arithmetic", "why_tests_cant": "29 settings with nested conditions; tests load a few fixed documents and look at products, not at the stored settings.", "anchors": ["cpp/src/helper/config.cpp: Config::load_cfg, Config::apply_config, Config::getConfigValue", "cpp/inc/helper/config.h: Config", "cpp/src/interface_pybind.cpp: set_config"]}
{"id": "C69", "title": "An update is a reload of the merged document", "statement": "An update_config that changes some entry and returns leaves as document the old one with the changed entries replaced, the configuration is the one the merged document describes, and loading the merged document in any state gives the same settings. If a structural entry changed, the resulting state (crossbar, counters, generator, histograms) is exactly that of set_config on the merged document.", "quantifier": "every state with a crossbar, every update object with distinct keys", "why_tests_cant": "All pairs of documents and updates; tests compare no states.", "anchors": ["cpp/src/helper/config.cpp: Config::update_cfg, Config::apply_config", "cpp/src/interface_pybind.cpp: update_config, set_config"]}
{"id": "C70", "title": "Wire resistance moves results by a bounded amount", "statement": "With wire resistance as the only non-ideal effect and the ideal converter, an MVM after the write of a valid matrix of the same shape returns, in every mode that has a solver, the digital result with an error of at most one per truncation plus the sum of the gains times N w_res (n LRS)^2 / (10^6 |V_read| (LRS - HRS)), whatever queries and MVMs came in between.", "quantifier": "every reachable state with such a configuration, every valid matrix that fits the solver, all valid inputs, all accumulators with room, all histories of queries and MVMs between write and MVM, exact reals", "why_tests_cant": "The bound covers all matrices, shapes, resistances and split layouts; the tests compare a few outputs of the solver with stored values.", "anchors": ["cpp/src/xbar/parasitics.cpp: ParasiticSolver::compute_currents", "cpp/src/mapping/int_mapper: a_mvm", "cpp/src/mapping/bnn_mapper: a_mvm", "cpp/src/mapping/tnn_mapper: a_mvm"]}
{"id": "C71", "title": "BNN_VI and TNN_I never reach full scale with wire resistance", "statement": "In BNN_VI and TNN_I with any positive wire resistance, however small, the result of a row is in magnitude strictly smaller than the magnitude of its accumulator plus the sum of the magnitudes of its terms (if there is a non-zero term): the sum of currents loses a little and the conversion to int cuts it to the next integer. Rows with no negative term and no negative accumulator always come out too small.", "quantifier": "every reachable state with such a configuration, every valid matrix that fits the solver, all valid inputs, all accumulators with room, exact reals", "why_tests_cant": "Holds for arbitrarily small resistances, where a test with tolerance sees nothing.", "anchors": ["cpp/src/mapping/bnn_mapper/bnn_vi.cpp: MapperBnnVI::a_mvm", "cpp/src/mapping/tnn_mapper/tnn_i.cpp: MapperTnnI::a_mvm", "cpp/src/xbar/parasitics.cpp: ParasiticSolver::compute_currents"]}
{"id": "C72", "title": "Profiling counts exactly one sample per row and conversion", "statement": "A successful MVM of m rows with profiling switched on adds to the histogram of its layer exactly m samples per analog-digital conversion of the mode (none for integer modes, whose converters are not profiled; one, two or four for the binary and ternary modes), however long the scratch vectors are; other layers, digital crossbars and crossbars with profiling off get none. No other call touches the histograms, and a histogram that exists keeps its range, bin width, labels and number of bins for the rest of the process and never loses samples.", "quantifier": "all reachable states, all MVMs, all histories, any floating-point arithmetic", "why_tests_cant": "A wrong slice of the scratch vector only shows when m is smaller than M and stale entries are counted; the tests profile nothing.", "anchors": ["cpp/src/xbar/adc.cpp: ADC::profile_inputs, ADC::convert", "cpp/src/helper/histogram.cpp: BinnedHistogram::update"]}
{"id": "C73", "title": "The histogram counts the converter's input currents", "statement": "In binary and ternary modes (no read noise, no wire resistance) an MVM adds to counter k of its layer the number of its converter input currents that round to bin k of the layer's grid, where the input currents are the sums, given by the mode's input coding, of cell currents times inputs.", "quantifier": "all reachable crossbars with cells in any condition (written, unwritten, noisy, aged), all valid inputs, all shapes, all states of the histogram, exact reals", "why_tests_cant": "The grid, the wiring and the contents are unbounded.", "anchors": ["cpp/src/xbar/adc.cpp: ADC::profile_inputs, ADC::convert", "cpp/src/helper/histogram.cpp: BinnedHistogram::update", "cpp/src/mapping/bnn_mapper: a_mvm", "cpp/src/mapping/tnn_mapper: a_mvm"]}
{"id": "C74", "title": "Profiling is safe below full scale", "statement": "On a BNN_VI or TNN_I crossbar with ideal cells and a finite converter, an MVM with profiling under a new layer name succeeds and returns the digital result within the accuracy of the converter whenever every row's current stays at least one bin below the end of the range.", "quantifier": "all reachable states with such a configuration, all valid matrices and inputs, all bin widths, exact reals", "why_tests_cant": "The bound that separates this from the out-of-bounds write of C47 holds for all bin widths and ranges.", "anchors": ["cpp/src/xbar/adc.cpp: ADC::profile_inputs, ADC::convert", "cpp/src/helper/histogram.cpp: BinnedHistogram::BinnedHistogram, BinnedHistogram::update"]}
{"id": "C75", "title": "Loading a configuration starts with fresh histograms", "statement": "Whether an MVM succeeds after set_config does not depend on what was run before set_config.", "quantifier": "all histories before the load", "why_tests_cant": "It takes two configurations in one process with profiling on and the same layer name.", "anchors": ["cpp/src/xbar/adc.cpp: ADC::profile_inputs, ADC::convert", "cpp/src/interface_pybind.cpp: set_config"]}
{"id": "C76", "title": "Only well-typed documents are accepted", "statement": "set_config rejects a document in which a setting has a value of the wrong type or out of the setting's range. (Refuted: it takes such values for others. Booleans stand for 0 and 1, integers are reduced modulo 2^32, fractions are cut off, and optional entries of a wrong type are ignored; loading such a document does exactly what loading the tidied document does. A fraction beyond the range is undefined behaviour.)", "quantifier": "all documents, all states", "why_tests_cant": "The claim covers every combination of odd values over 29 settings; a test samples a few.", "anchors": ["cpp/src/helper/config.cpp: getConfigValue, Config::apply_config", "cpp/src/interface_pybind.cpp: set_config"]}
{"id": "C77", "title": "What digital products do with weights out of range", "statement": "In the six integer modes every weight can be written, and the digital product is the one with what is left of the weights: the sign with the low W_BIT bits of the magnitude, or the two's complement wrap-around in I_UINT_W_OFFS. (Refuted part: 'the mapping mode is invisible in digital results' does not extend to such weights. I_OFFS_W_DIFF corrects its results with the weights as they were written, so it is off by 2^(I_BIT-1) times what was cut off.)", "quantifier": "all reachable digital states in an integer mode, all matrices of any size that fits the crossbar, all inputs in range, within 32-bit room", "why_tests_cant": "All int32 weights over all widths, splits and sizes; the tests of the project only write weights in range.", "anchors": ["cpp/src/mapping/mapper.cpp: Mapper::d_write_diff, Mapper::d_write_offs", "cpp/src/mapping/int_mapper/int_i.cpp..int_v.cpp: d_mvm"]}
{"id": "C78", "title": "What binary and ternary modes without a check take other numbers for", "statement": "BNN_III, BNN_IV, TNN_IV and TNN_V do not look at the weights they are given. A digital product then is the one with the weights those numbers stand for: up to 0 is -1 and above is 1 in BNN_III (for -1..2), below 0 is -1 and from 0 is 1 in BNN_IV (for -2..2), the two's complement value of the lowest two bits in TNN_IV, and the lowest two bits of the number plus one, minus one, in TNN_V. (Refuted part: a number outside the domain does not stand for the same weight in two modes of a family.)", "quantifier": "all reachable digital states in those modes, all matrices of such numbers of any size that fits, all valid inputs, within 32-bit room", "why_tests_cant": "All int32 values at all positions; the tests of the project only write valid weights.", "anchors": ["cpp/src/mapping/bnn_mapper/bnn_iii.cpp: d_write, d_mvm", "cpp/src/mapping/bnn_mapper/bnn_iv.cpp: d_write, d_mvm", "cpp/src/mapping/mapper.cpp: Mapper::d_write_tc_tnn", "cpp/src/mapping/tnn_mapper/tnn_iv.cpp, tnn_v.cpp: d_mvm"]}
{"id": "C79", "title": "What the profile report says", "statement": "Reporting the converter input histograms changes nothing. In exact arithmetic, for every reduction order, the report gives for each layer the counters under the middles of their bins in order, the number of samples, the mean of the middles, and a variance in which the middles are cut to whole numbers; that is the right variance for even bins on a whole-numbered range. The report exists exactly when all middles fit 32 bits. (Refuted parts: a reachable state whose report is undefined; a wrong variance; in binary32, coinciding labels whose counters are left out, and a mean that is not a number for a layer without samples.)", "quantifier": "all reachable states, all layers with positive bins and at least one sample, all schedules of the parallel reductions", "why_tests_cant": "All histories and all orders of summation; no test of the project looks at the mean, the variance or histograms with odd bins.", "anchors": ["cpp/src/helper/histogram.cpp: BinnedHistogram::to_json, get_samples, get_mean, get_variance", "cpp/src/helper/histogram.cpp: WorkloadHistograms::to_json", "cpp/src/interface_pybind.cpp: get_adc_profile, dump_adc_profile"]}
{"id": "C80", "title": "The reported mean is too high", "statement": "In exact arithmetic, after an MVM on a new layer in a mode without slices, the reported mean lies strictly above the average of the converter input currents and at most one bin above it. (Refuted part: it is not within half a bin; a whole bin is attained.)", "quantifier": "all reachable states with profiling, a bounded converter, no c2c noise and no wire resistance, all sizes, inputs and stored cells", "why_tests_cant": "All currents and bin sizes; a test would need the currents, which are not observable.", "anchors": ["cpp/src/helper/histogram.cpp: BinnedHistogram::BinnedHistogram, update, get_mean", "cpp/src/xbar/adc.cpp: ADC::convert, profile_inputs"]}
{"id": "C81", "title": "A digital crossbar is a memory with row sums", "statement": "After set_config, any mix of writes of any sizes (overlapping, of different widths, or refused for their size), MVMs, queries and harmless updates, a digital MVM of any size yields res plus the product with the weights last written to each place; a place without a weight contributes a fixed value of the mode; and in the modes that correct with row sums, a multiple of the difference between the sum of the last write that reached the row and the remembered weights read. (Refuted parts: a crossbar without weights does not always multiply by zero; writing a weight over an equal one can change the product.)", "quantifier": "all reachable states, all documents, all histories of such calls, all seventeen modes, all sizes, weights and inputs of the mode with room in 32 bits", "why_tests_cant": "All histories of writes; the tests of the project write one matrix and read it with its own size.", "anchors": ["cpp/src/mapping/mapper.cpp: Mapper::Mapper", "cpp/src/mapping/int_mapper, bnn_mapper, tnn_mapper: d_write, d_mvm", "cpp/src/xbar/crossbar.cpp: Crossbar::write, mvm", "cpp/src/interface_pybind.cpp: set_config, cpy_mtrx, exe_mvm"]}
{"id": "C82", "title": "An ideal analog crossbar is the same memory", "statement": "After set_config, any mix of writes of any sizes (overlapping, of different widths, or refused for their size), MVMs, queries and harmless updates, an analog crossbar with ideal cells and an infinite converter answers an MVM of any size exactly as a digital crossbar with the same history (C81), also where no weight has been written.", "quantifier": "all reachable states, all documents, all histories of such calls, all seventeen modes, all sizes, weights and inputs of the mode with room in 32 bits, any currents HRS <> LRS; exact arithmetic", "why_tests_cant": "All histories of writes and a continuum of device currents; the tests of the project write one matrix and read it with its own size.", "anchors": ["cpp/src/mapping/mapper.cpp: Mapper::Mapper, a_write_p_m, a_write_p_m_bnn", "cpp/src/mapping/int_mapper, bnn_mapper, tnn_mapper: a_write, a_mvm", "cpp/src/xbar/crossbar.cpp: Crossbar::write, mvm", "cpp/src/interface_pybind.cpp: set_config, cpy_mtrx, exe_mvm"]}
{"id": "C83", "title": "A finite converter reads the same memory", "statement": "After set_config and any mix of writes of any sizes, MVMs, queries and harmless updates, an analog crossbar with ideal cells and a MAX-calibrated finite converter answers an MVM of any size within the converter's own accuracy of what a digital crossbar with the same history answers (no clipping, also where no weight has been written), and exactly if half a converter step is worth less than half a unit.", "quantifier": "all reachable states, all documents, all histories of such calls, fifteen modes (not TNN_IV, TNN_V, see C29), all sizes, weights, inputs, resolutions of 1 to 30 bits, any currents 0 < HRS < LRS; exact arithmetic", "why_tests_cant": "All histories of writes and a continuum of device currents; the tests of the project write one matrix and read it with its own size.", "anchors": ["cpp/src/xbar/adc.cpp", "cpp/src/mapping/mapper.cpp: Mapper::Mapper, a_write_p_m, a_write_p_m_bnn", "cpp/src/mapping/int_mapper, bnn_mapper, tnn_mapper: a_write, a_mvm", "cpp/src/xbar/crossbar.cpp: Crossbar::write, mvm"]}
{"id": "C84", "title": "Finding: switching wire resistance off leaves a short buffer", "statement": "One would expect a crossbar whose w_res is updated to 0 to work like one without wire resistance (C67). In the integer modes it does not: a single MVM with wire resistance shrinks the buffer of the slice currents to M entries for good, so that after any further writes, MVMs, queries and harmless updates every guarded MVM without wire resistance that has more sliced rows (m times the number of slices) than M, at least one column and legal inputs accesses the buffer out of bounds and never returns normally.", "quantifier": "all reachable states, all later histories without a new crossbar, all integer modes with wire resistance, all sizes, weights and inputs, any noise", "why_tests_cant": "It takes three steps in the right order (MVM with wire resistance, update of w_res, larger MVM); each of them is fine alone, and writing past the size of a vector that once was larger crashes nothing.", "anchors": ["cpp/src/xbar/parasitics.cpp: encode_output (res.assign(m_xbar_, 0))", "cpp/src/mapping/int_mapper/int_i.cpp: a_mvm", "cpp/src/helper/config.cpp:291-297", "cpp/src/helper/config.cpp: update_cfg"]}
{"id": "C85", "title": "Finding: software refresh and wire resistance exclude each other in three modes", "statement": "One would expect a software refresh of a crossbar with wire resistance to work in every mode. It does not in BNN_V, BNN_VI and TNN_I, which have two physical rows per input: the refresh hands the full crossbar of N inputs to a solver of N rows, so an MVM that is due for a refresh never succeeds and the refresh counter never changes. In the other modes MVMs that fit stay memory safe through any number of refreshes, and the first refresh even makes MVMs with more rows than were written safe, because it loads all M rows.", "quantifier": "all reachable states with wire resistance, all later histories of MVMs and queries, all modes, sizes, weights, inputs, any noise", "why_tests_cant": "The refresh happens after a number of MVMs that depends on the floating-point read-disturb model, and the same program is fine without wire resistance, with a smaller number of MVMs or in any of the other modes.", "anchors": ["cpp/src/xbar/crossbar.cpp:120-155", "cpp/src/xbar/parasitics.cpp: set_conductance, encode_weights", "cpp/src/mapping/bnn_mapper/bnn_vi.cpp: a_write"]}
{"id": "C86", "title": "Finding: a file that does not parse takes effect later", "statement": "One would expect a set_config whose file does not parse to leave no trace beyond the removed crossbar. What the parser had read of the file stays behind as the document: after a set_config without a path (which recreates the crossbar from the old settings) the next update that changes some entry, but no structural one, installs the settings of the broken file merged with the update, while the crossbar keeps the dimensions of the old settings. Writes within the new sizes can then be out of bounds.", "quantifier": "all states, all remains of the broken file, all updates", "why_tests_cant": "It needs a caught exception followed by two successful calls, and the damage shows only when the sizes in the broken file differ from the old ones.", "anchors": ["cpp/src/helper/config.cpp:43-56", "cpp/src/helper/config.cpp: update_cfg", "cpp/src/interface_pybind.cpp:60-105"]}
{"id": "C87", "title": "Finding: unusable histogram bin sizes are accepted", "statement": "One would expect a profiled crossbar to reject bin sizes it cannot use. No bin size is rejected: with 0 the number of bins is an infinity or NaN converted to an integer, with a negative size it is negative, and above twice the converter range there is no bin at all; in all these cases no MVM with at least one row of a layer without histogram is ever answered in the binary and ternary modes.", "quantifier": "all reachable states, all modes that profile, all sizes, weights, inputs and layers; any noise; width 0 for IEEE arithmetic with any libm, negative and large widths for exact arithmetic", "why_tests_cant": "The tests use one bin size; a sanitizer reports the conversion only on the bad configuration.", "anchors": ["cpp/src/helper/config.cpp: adc_profile_bin_size", "cpp/src/helper/histogram.cpp:80-108", "cpp/src/xbar/adc.cpp:75-89"]}
{"id": "C88", "title": "Finding: slices of width zero are accepted and make every analog MVM fail", "statement": "One would expect a slice of width zero to be rejected when the configuration is loaded, or to be ignored as it is by digital crossbars. It is accepted; the distance between two current levels of the slice is a division by 2^0 - 1 = 0, every cell of the slice is programmed to NaN, and after a successful write no analog MVM of an integer mode with at least one row and one column ever succeeds.", "quantifier": "all reachable states, all six integer modes, all slice lists containing 0, all written matrices, all queries and MVMs in between, all inputs, all converters and layers; IEEE arithmetic with any libm", "why_tests_cant": "The tests use positive slice widths; the NaN only shows as an unspecified integer in the result.", "anchors": ["cpp/src/mapping/mapper.cpp:73-75", "cpp/src/mapping/mapper.cpp:237-272", "cpp/src/helper/config.cpp: SPLIT"]}
{"id": "C89", "title": "Finding: negative wire resistances are accepted and amplify currents", "statement": "One would expect a negative wire resistance to be rejected when the configuration is loaded: a resistance along a column can only reduce the current that reaches the converter (C42). Only w_res = 0 is treated specially; a negative value is accepted, and then the parasitic solver returns more current than the cells carry, for every driven column whose wires are small against its cells, and a negative current for a column of a single cell once the wire is large.", "quantifier": "all reachable states of the six modes that read one column, all negative wire resistances, all valid matrices that fit, all inputs, all output columns; exact arithmetic", "why_tests_cant": "The tests use positive wire resistances; the amplified result is a plausible integer.", "anchors": ["cpp/src/helper/config.cpp:293-297", "cpp/src/xbar/parasitics.cpp:66-140"]}
{"id": "C90", "title": "Power-of-two current steps make analog MVMs exact in single precision", "statement": "With HRS = h and LRS = h + 2^k (integers, summed currents below 24 bits), the ideal converter and no non-idealities, every binary or ternary mode computes exactly the integer product in IEEE single precision: no rounding happens in the scaling by 1/(LRS - HRS), in the offset corrections or in the store into the result, as long as the results stay 3*n below 2^24. This is the counterpart of C22 and C23.", "quantifier": "all reachable states of the eleven binary and ternary modes, all h and k within the bound, all valid matrices, inputs and accumulators in range, all quiet histories between write and MVM, every libm and noise source", "why_tests_cant": "Tests compare a few products for one pair of currents; that no rounding occurs is a statement about every partial sum.", "anchors": ["cpp/src/xbar/adc.cpp: ADCInfinite::convert", "cpp/src/mapping/bnn_mapper/bnn_vi.cpp: a_mvm"]}
