(** Validation of the model: the project's own unit tests of the C interface
    (/repo/cpp/test/lib/mvm_tests.cpp, adc_tests.cpp, parasitics_tests.cpp) and of the
    converters through the Python module (/repo/int-bindings/test/adc_test.py), run on the model with
    IEEE binary32/binary64 arithmetic, with the answers those tests assert.  These are
    tests of the model, not proofs of properties; no claim rests on them. *)
From Coq Require Import String List ZArith Bool.
From Verif Require Import Base Machine FloatMachine Json Config Crossbar Api Reach Demo.
Import ListNotations.
Local Open Scope Z_scope.

#[local] Existing Instance toy.

(** /repo/cpp/test/lib/configs/digital/I_DIFF_W_DIFF_1XB.json *)
Definition cfg_digital_I_DIFF_W_DIFF_1XB : json :=
  JObj [("I_BIT", JInt 8); ("M", JInt 32); ("N", JInt 32); ("SPLIT", JArr [JInt 1; JInt 3; JInt
  4]); ("W_BIT", JInt 8); ("digital_only", JBool true); ("m_mode", JStr "I_DIFF_W_DIFF_1XB");
  ("verbose", JBool false)]%string.
(** /repo/cpp/test/lib/configs/analog/I_DIFF_W_DIFF_1XB.json *)
Definition cfg_analog_I_DIFF_W_DIFF_1XB : json :=
  JObj [("HRS", JFlt (d_lit 50 (-1))); ("HRS_NOISE", JFlt (d_lit 0 (-1))); ("I_BIT", JInt 8);
  ("LRS", JFlt (d_lit 300 (-1))); ("LRS_NOISE", JFlt (d_lit 0 (-1))); ("M", JInt 32); ("N",
  JInt 32); ("SPLIT", JArr [JInt 1; JInt 3; JInt 4]); ("W_BIT", JInt 8); ("adc_type", JStr
  "SYM_RANGE_ADC"); ("digital_only", JBool false); ("m_mode", JStr "I_DIFF_W_DIFF_1XB");
  ("resolution", JInt 20); ("verbose", JBool false)]%string.
(** /repo/cpp/test/lib/configs/digital/I_DIFF_W_DIFF_2XB.json *)
Definition cfg_digital_I_DIFF_W_DIFF_2XB : json :=
  JObj [("I_BIT", JInt 8); ("M", JInt 32); ("N", JInt 32); ("SPLIT", JArr [JInt 1; JInt 3; JInt
  4]); ("W_BIT", JInt 8); ("digital_only", JBool true); ("m_mode", JStr "I_DIFF_W_DIFF_2XB");
  ("verbose", JBool false)]%string.
(** /repo/cpp/test/lib/configs/analog/I_DIFF_W_DIFF_2XB.json *)
Definition cfg_analog_I_DIFF_W_DIFF_2XB : json :=
  JObj [("HRS", JFlt (d_lit 50 (-1))); ("HRS_NOISE", JFlt (d_lit 0 (-1))); ("I_BIT", JInt 8);
  ("LRS", JFlt (d_lit 300 (-1))); ("LRS_NOISE", JFlt (d_lit 0 (-1))); ("M", JInt 32); ("N",
  JInt 32); ("SPLIT", JArr [JInt 1; JInt 3; JInt 4]); ("W_BIT", JInt 8); ("adc_type", JStr
  "SYM_RANGE_ADC"); ("digital_only", JBool false); ("m_mode", JStr "I_DIFF_W_DIFF_2XB");
  ("resolution", JInt 20); ("verbose", JBool false)]%string.
(** /repo/cpp/test/lib/configs/digital/I_OFFS_W_DIFF.json *)
Definition cfg_digital_I_OFFS_W_DIFF : json :=
  JObj [("I_BIT", JInt 8); ("M", JInt 32); ("N", JInt 32); ("SPLIT", JArr [JInt 1; JInt 3; JInt
  4]); ("W_BIT", JInt 8); ("digital_only", JBool true); ("m_mode", JStr "I_OFFS_W_DIFF");
  ("verbose", JBool false)]%string.
(** /repo/cpp/test/lib/configs/analog/I_OFFS_W_DIFF.json *)
Definition cfg_analog_I_OFFS_W_DIFF : json :=
  JObj [("HRS", JFlt (d_lit 50 (-1))); ("HRS_NOISE", JFlt (d_lit 0 (-1))); ("I_BIT", JInt 8);
  ("LRS", JFlt (d_lit 300 (-1))); ("LRS_NOISE", JFlt (d_lit 0 (-1))); ("M", JInt 32); ("N",
  JInt 32); ("SPLIT", JArr [JInt 1; JInt 3; JInt 4]); ("W_BIT", JInt 8); ("adc_type", JStr
  "SYM_RANGE_ADC"); ("digital_only", JBool false); ("m_mode", JStr "I_OFFS_W_DIFF");
  ("resolution", JInt 20); ("verbose", JBool false)]%string.
(** /repo/cpp/test/lib/configs/digital/I_TC_W_DIFF.json *)
Definition cfg_digital_I_TC_W_DIFF : json :=
  JObj [("I_BIT", JInt 8); ("M", JInt 32); ("N", JInt 32); ("SPLIT", JArr [JInt 1; JInt 3; JInt
  4]); ("W_BIT", JInt 8); ("digital_only", JBool true); ("m_mode", JStr "I_TC_W_DIFF");
  ("verbose", JBool false)]%string.
(** /repo/cpp/test/lib/configs/analog/I_TC_W_DIFF.json *)
Definition cfg_analog_I_TC_W_DIFF : json :=
  JObj [("HRS", JFlt (d_lit 50 (-1))); ("HRS_NOISE", JFlt (d_lit 0 (-1))); ("I_BIT", JInt 8);
  ("LRS", JFlt (d_lit 300 (-1))); ("LRS_NOISE", JFlt (d_lit 0 (-1))); ("M", JInt 32); ("N",
  JInt 32); ("SPLIT", JArr [JInt 1; JInt 3; JInt 4]); ("W_BIT", JInt 8); ("adc_type", JStr
  "SYM_RANGE_ADC"); ("digital_only", JBool false); ("m_mode", JStr "I_TC_W_DIFF");
  ("resolution", JInt 20); ("verbose", JBool false)]%string.
(** /repo/cpp/test/lib/configs/digital/I_UINT_W_DIFF.json *)
Definition cfg_digital_I_UINT_W_DIFF : json :=
  JObj [("I_BIT", JInt 8); ("M", JInt 32); ("N", JInt 32); ("SPLIT", JArr [JInt 1; JInt 3; JInt
  4]); ("W_BIT", JInt 8); ("digital_only", JBool true); ("m_mode", JStr "I_UINT_W_DIFF");
  ("verbose", JBool false)]%string.
(** /repo/cpp/test/lib/configs/analog/I_UINT_W_DIFF.json *)
Definition cfg_analog_I_UINT_W_DIFF : json :=
  JObj [("HRS", JFlt (d_lit 50 (-1))); ("HRS_NOISE", JFlt (d_lit 0 (-1))); ("I_BIT", JInt 8);
  ("LRS", JFlt (d_lit 300 (-1))); ("LRS_NOISE", JFlt (d_lit 0 (-1))); ("M", JInt 32); ("N",
  JInt 32); ("SPLIT", JArr [JInt 1; JInt 3; JInt 4]); ("W_BIT", JInt 8); ("adc_type", JStr
  "SYM_RANGE_ADC"); ("digital_only", JBool false); ("m_mode", JStr "I_UINT_W_DIFF");
  ("resolution", JInt 20); ("verbose", JBool false)]%string.
(** /repo/cpp/test/lib/configs/digital/I_UINT_W_OFFS.json *)
Definition cfg_digital_I_UINT_W_OFFS : json :=
  JObj [("I_BIT", JInt 8); ("M", JInt 32); ("N", JInt 32); ("SPLIT", JArr [JInt 1; JInt 3; JInt
  4]); ("W_BIT", JInt 8); ("digital_only", JBool true); ("m_mode", JStr "I_UINT_W_OFFS");
  ("verbose", JBool false)]%string.
(** /repo/cpp/test/lib/configs/analog/I_UINT_W_OFFS.json *)
Definition cfg_analog_I_UINT_W_OFFS : json :=
  JObj [("HRS", JFlt (d_lit 50 (-1))); ("HRS_NOISE", JFlt (d_lit 0 (-1))); ("I_BIT", JInt 8);
  ("LRS", JFlt (d_lit 300 (-1))); ("LRS_NOISE", JFlt (d_lit 0 (-1))); ("M", JInt 32); ("N",
  JInt 32); ("SPLIT", JArr [JInt 1; JInt 3; JInt 4]); ("W_BIT", JInt 8); ("adc_type", JStr
  "POS_RANGE_ONLY_ADC"); ("digital_only", JBool false); ("m_mode", JStr "I_UINT_W_OFFS");
  ("resolution", JInt 20); ("verbose", JBool false)]%string.
(** /repo/cpp/test/lib/configs/digital/BNN_I.json *)
Definition cfg_digital_BNN_I : json :=
  JObj [("M", JInt 32); ("N", JInt 32); ("digital_only", JBool true); ("m_mode", JStr "BNN_I");
  ("verbose", JBool false)]%string.
(** /repo/cpp/test/lib/configs/analog/BNN_I.json *)
Definition cfg_analog_BNN_I : json :=
  JObj [("HRS", JFlt (d_lit 50 (-1))); ("HRS_NOISE", JFlt (d_lit 0 (-1))); ("LRS", JFlt (d_lit
  300 (-1))); ("LRS_NOISE", JFlt (d_lit 0 (-1))); ("M", JInt 32); ("N", JInt 32); ("adc_type",
  JStr "SYM_RANGE_ADC"); ("digital_only", JBool false); ("m_mode", JStr "BNN_I");
  ("resolution", JInt 20); ("verbose", JBool false)]%string.
(** /repo/cpp/test/lib/configs/digital/BNN_II.json *)
Definition cfg_digital_BNN_II : json :=
  JObj [("M", JInt 32); ("N", JInt 32); ("digital_only", JBool true); ("m_mode", JStr
  "BNN_II"); ("verbose", JBool false)]%string.
(** /repo/cpp/test/lib/configs/analog/BNN_II.json *)
Definition cfg_analog_BNN_II : json :=
  JObj [("HRS", JFlt (d_lit 50 (-1))); ("HRS_NOISE", JFlt (d_lit 0 (-1))); ("LRS", JFlt (d_lit
  300 (-1))); ("LRS_NOISE", JFlt (d_lit 0 (-1))); ("M", JInt 32); ("N", JInt 32); ("adc_type",
  JStr "SYM_RANGE_ADC"); ("digital_only", JBool false); ("m_mode", JStr "BNN_II");
  ("resolution", JInt 20); ("verbose", JBool false)]%string.
(** /repo/cpp/test/lib/configs/digital/BNN_III.json *)
Definition cfg_digital_BNN_III : json :=
  JObj [("M", JInt 32); ("N", JInt 32); ("digital_only", JBool true); ("m_mode", JStr
  "BNN_III"); ("verbose", JBool false)]%string.
(** /repo/cpp/test/lib/configs/analog/BNN_III.json *)
Definition cfg_analog_BNN_III : json :=
  JObj [("HRS", JFlt (d_lit 50 (-1))); ("HRS_NOISE", JFlt (d_lit 0 (-1))); ("LRS", JFlt (d_lit
  300 (-1))); ("LRS_NOISE", JFlt (d_lit 0 (-1))); ("M", JInt 32); ("N", JInt 32); ("adc_type",
  JStr "POS_RANGE_ONLY_ADC"); ("digital_only", JBool false); ("m_mode", JStr "BNN_III");
  ("resolution", JInt 20); ("verbose", JBool false)]%string.
(** /repo/cpp/test/lib/configs/digital/BNN_IV.json *)
Definition cfg_digital_BNN_IV : json :=
  JObj [("M", JInt 32); ("N", JInt 32); ("digital_only", JBool true); ("m_mode", JStr
  "BNN_IV"); ("verbose", JBool false)]%string.
(** /repo/cpp/test/lib/configs/analog/BNN_IV.json *)
Definition cfg_analog_BNN_IV : json :=
  JObj [("HRS", JFlt (d_lit 50 (-1))); ("HRS_NOISE", JFlt (d_lit 0 (-1))); ("LRS", JFlt (d_lit
  300 (-1))); ("LRS_NOISE", JFlt (d_lit 0 (-1))); ("M", JInt 32); ("N", JInt 32); ("adc_type",
  JStr "POS_RANGE_ONLY_ADC"); ("digital_only", JBool false); ("m_mode", JStr "BNN_IV");
  ("resolution", JInt 20); ("verbose", JBool false)]%string.
(** /repo/cpp/test/lib/configs/digital/BNN_V.json *)
Definition cfg_digital_BNN_V : json :=
  JObj [("M", JInt 32); ("N", JInt 32); ("digital_only", JBool true); ("m_mode", JStr "BNN_V");
  ("verbose", JBool false)]%string.
(** /repo/cpp/test/lib/configs/analog/BNN_V.json *)
Definition cfg_analog_BNN_V : json :=
  JObj [("HRS", JFlt (d_lit 50 (-1))); ("HRS_NOISE", JFlt (d_lit 0 (-1))); ("LRS", JFlt (d_lit
  300 (-1))); ("LRS_NOISE", JFlt (d_lit 0 (-1))); ("M", JInt 32); ("N", JInt 32); ("adc_type",
  JStr "POS_RANGE_ONLY_ADC"); ("digital_only", JBool false); ("m_mode", JStr "BNN_V");
  ("resolution", JInt 20); ("verbose", JBool false)]%string.
(** /repo/cpp/test/lib/configs/digital/BNN_VI.json *)
Definition cfg_digital_BNN_VI : json :=
  JObj [("M", JInt 32); ("N", JInt 32); ("digital_only", JBool true); ("m_mode", JStr
  "BNN_VI"); ("verbose", JBool false)]%string.
(** /repo/cpp/test/lib/configs/analog/BNN_VI.json *)
Definition cfg_analog_BNN_VI : json :=
  JObj [("HRS", JFlt (d_lit 50 (-1))); ("HRS_NOISE", JFlt (d_lit 0 (-1))); ("LRS", JFlt (d_lit
  300 (-1))); ("LRS_NOISE", JFlt (d_lit 0 (-1))); ("M", JInt 32); ("N", JInt 32); ("adc_type",
  JStr "SYM_RANGE_ADC"); ("digital_only", JBool false); ("m_mode", JStr "BNN_VI");
  ("resolution", JInt 20); ("verbose", JBool false)]%string.
(** /repo/cpp/test/lib/configs/digital/TNN_I.json *)
Definition cfg_digital_TNN_I : json :=
  JObj [("M", JInt 32); ("N", JInt 32); ("digital_only", JBool true); ("m_mode", JStr "TNN_I");
  ("verbose", JBool false)]%string.
(** /repo/cpp/test/lib/configs/analog/TNN_I.json *)
Definition cfg_analog_TNN_I : json :=
  JObj [("HRS", JFlt (d_lit 50 (-1))); ("HRS_NOISE", JFlt (d_lit 0 (-1))); ("LRS", JFlt (d_lit
  300 (-1))); ("LRS_NOISE", JFlt (d_lit 0 (-1))); ("M", JInt 32); ("N", JInt 32); ("adc_type",
  JStr "SYM_RANGE_ADC"); ("digital_only", JBool false); ("m_mode", JStr "TNN_I");
  ("resolution", JInt 20); ("verbose", JBool false)]%string.
(** /repo/cpp/test/lib/configs/digital/TNN_II.json *)
Definition cfg_digital_TNN_II : json :=
  JObj [("M", JInt 32); ("N", JInt 32); ("digital_only", JBool true); ("m_mode", JStr
  "TNN_II"); ("verbose", JBool false)]%string.
(** /repo/cpp/test/lib/configs/analog/TNN_II.json *)
Definition cfg_analog_TNN_II : json :=
  JObj [("HRS", JFlt (d_lit 50 (-1))); ("HRS_NOISE", JFlt (d_lit 0 (-1))); ("LRS", JFlt (d_lit
  300 (-1))); ("LRS_NOISE", JFlt (d_lit 0 (-1))); ("M", JInt 32); ("N", JInt 32); ("adc_type",
  JStr "SYM_RANGE_ADC"); ("digital_only", JBool false); ("m_mode", JStr "TNN_II");
  ("resolution", JInt 20); ("verbose", JBool false)]%string.
(** /repo/cpp/test/lib/configs/digital/TNN_III.json *)
Definition cfg_digital_TNN_III : json :=
  JObj [("M", JInt 32); ("N", JInt 32); ("digital_only", JBool true); ("m_mode", JStr
  "TNN_III"); ("verbose", JBool false)]%string.
(** /repo/cpp/test/lib/configs/analog/TNN_III.json *)
Definition cfg_analog_TNN_III : json :=
  JObj [("HRS", JFlt (d_lit 50 (-1))); ("HRS_NOISE", JFlt (d_lit 0 (-1))); ("LRS", JFlt (d_lit
  300 (-1))); ("LRS_NOISE", JFlt (d_lit 0 (-1))); ("M", JInt 32); ("N", JInt 32); ("adc_type",
  JStr "SYM_RANGE_ADC"); ("digital_only", JBool false); ("m_mode", JStr "TNN_III");
  ("resolution", JInt 20); ("verbose", JBool false)]%string.
(** /repo/cpp/test/lib/configs/digital/TNN_IV_split.json *)
Definition cfg_digital_TNN_IV_split : json :=
  JObj [("M", JInt 32); ("N", JInt 32); ("SPLIT", JArr [JInt 1; JInt 1]); ("W_BIT", JInt 2);
  ("digital_only", JBool true); ("m_mode", JStr "TNN_IV"); ("verbose", JBool false)]%string.
(** /repo/cpp/test/lib/configs/analog/TNN_IV_split.json *)
Definition cfg_analog_TNN_IV_split : json :=
  JObj [("HRS", JFlt (d_lit 50 (-1))); ("HRS_NOISE", JFlt (d_lit 0 (-1))); ("LRS", JFlt (d_lit
  300 (-1))); ("LRS_NOISE", JFlt (d_lit 0 (-1))); ("M", JInt 32); ("N", JInt 32); ("SPLIT",
  JArr [JInt 1; JInt 1]); ("W_BIT", JInt 2); ("adc_type", JStr "POS_RANGE_ONLY_ADC");
  ("digital_only", JBool false); ("m_mode", JStr "TNN_IV"); ("resolution", JInt 20);
  ("verbose", JBool false)]%string.
(** /repo/cpp/test/lib/configs/digital/TNN_V_split.json *)
Definition cfg_digital_TNN_V_split : json :=
  JObj [("M", JInt 32); ("N", JInt 32); ("SPLIT", JArr [JInt 1; JInt 1]); ("W_BIT", JInt 2);
  ("digital_only", JBool true); ("m_mode", JStr "TNN_IV"); ("verbose", JBool false)]%string.
(** /repo/cpp/test/lib/configs/analog/TNN_V_split.json *)
Definition cfg_analog_TNN_V_split : json :=
  JObj [("HRS", JFlt (d_lit 50 (-1))); ("HRS_NOISE", JFlt (d_lit 0 (-1))); ("LRS", JFlt (d_lit
  300 (-1))); ("LRS_NOISE", JFlt (d_lit 0 (-1))); ("M", JInt 32); ("N", JInt 32); ("SPLIT",
  JArr [JInt 1; JInt 1]); ("W_BIT", JInt 2); ("adc_type", JStr "POS_RANGE_ONLY_ADC");
  ("digital_only", JBool false); ("m_mode", JStr "TNN_V"); ("resolution", JInt 20); ("verbose",
  JBool false)]%string.
(** /repo/cpp/test/lib/configs/analog/SYM_ADC_1.json *)
Definition cfg_analog_SYM_ADC_1 : json :=
  JObj [("HRS", JFlt (d_lit 50 (-1))); ("HRS_NOISE", JFlt (d_lit 0 (-1))); ("I_BIT", JInt 2);
  ("LRS", JFlt (d_lit 300 (-1))); ("LRS_NOISE", JFlt (d_lit 0 (-1))); ("M", JInt 3); ("N", JInt
  5); ("SPLIT", JArr [JInt 8]); ("W_BIT", JInt 8); ("adc_type", JStr "SYM_RANGE_ADC");
  ("digital_only", JBool false); ("m_mode", JStr "I_DIFF_W_DIFF_1XB"); ("resolution", JInt 12);
  ("verbose", JBool false)]%string.
(** /repo/cpp/test/lib/configs/analog/SYM_ADC_2.json *)
Definition cfg_analog_SYM_ADC_2 : json :=
  JObj [("HRS", JFlt (d_lit 50 (-1))); ("HRS_NOISE", JFlt (d_lit 0 (-1))); ("I_BIT", JInt 1);
  ("LRS", JFlt (d_lit 300 (-1))); ("LRS_NOISE", JFlt (d_lit 0 (-1))); ("M", JInt 3); ("N", JInt
  5); ("SPLIT", JArr [JInt 8]); ("W_BIT", JInt 8); ("adc_type", JStr "SYM_RANGE_ADC");
  ("digital_only", JBool false); ("m_mode", JStr "I_OFFS_W_DIFF"); ("resolution", JInt 13);
  ("verbose", JBool false)]%string.
(** /repo/cpp/test/lib/configs/analog/POS_ADC_1.json *)
Definition cfg_analog_POS_ADC_1 : json :=
  JObj [("HRS", JFlt (d_lit 50 (-1))); ("HRS_NOISE", JFlt (d_lit 0 (-1))); ("I_BIT", JInt 1);
  ("LRS", JFlt (d_lit 300 (-1))); ("LRS_NOISE", JFlt (d_lit 0 (-1))); ("M", JInt 3); ("N", JInt
  5); ("SPLIT", JArr [JInt 8]); ("W_BIT", JInt 8); ("adc_type", JStr "POS_RANGE_ONLY_ADC");
  ("digital_only", JBool false); ("m_mode", JStr "I_UINT_W_OFFS"); ("resolution", JInt 8);
  ("verbose", JBool false)]%string.
(** /repo/cpp/test/lib/configs/analog/SYM_ADC_3.json *)
Definition cfg_analog_SYM_ADC_3 : json :=
  JObj [("HRS", JFlt (d_lit 50 (-1))); ("HRS_NOISE", JFlt (d_lit 0 (-1))); ("I_BIT", JInt 1);
  ("LRS", JFlt (d_lit 300 (-1))); ("LRS_NOISE", JFlt (d_lit 0 (-1))); ("M", JInt 3); ("N", JInt
  5); ("SPLIT", JArr [JInt 8]); ("W_BIT", JInt 8); ("adc_type", JStr "SYM_RANGE_ADC");
  ("digital_only", JBool false); ("m_mode", JStr "I_TC_W_DIFF"); ("resolution", JInt 8);
  ("verbose", JBool false)]%string.
(** /repo/cpp/test/lib/configs/analog/SYM_ADC_4.json *)
Definition cfg_analog_SYM_ADC_4 : json :=
  JObj [("HRS", JFlt (d_lit 50 (-1))); ("HRS_NOISE", JFlt (d_lit 0 (-1))); ("I_BIT", JInt 1);
  ("LRS", JFlt (d_lit 300 (-1))); ("LRS_NOISE", JFlt (d_lit 0 (-1))); ("M", JInt 3); ("N", JInt
  5); ("SPLIT", JArr [JInt 8]); ("W_BIT", JInt 8); ("adc_type", JStr "SYM_RANGE_ADC");
  ("digital_only", JBool false); ("m_mode", JStr "I_UINT_W_DIFF"); ("resolution", JInt 8);
  ("verbose", JBool false)]%string.

(** /repo/cpp/test/lib/mvm_tests.cpp, lines 23-47. *)
Example mvm_I_DIFF_W_DIFF_1XB_dig : answers world0
   [SetConfig (Parsed cfg_digital_I_DIFF_W_DIFF_1XB); CpyMtrx [100; -32; 1; 0; 12; 1] 3 2;
   ExeMvm [1; 1; -1] [-120; 55] [100; -32; 1; 0; 12; 1] 3 2 "Unknown"; ExeMvm [0; 0; 0] [0; 10]
   [100; -32; 1; 0; 12; 1] 3 2 "Unknown"]%string
  = Some [[]; [0]; [0; -13759; -119; -1386]; [0; -320; 0; 10]].
Proof. vm_compute. reflexivity. Qed.

(** /repo/cpp/test/lib/mvm_tests.cpp, lines 23-47. *)
Example mvm_I_DIFF_W_DIFF_1XB_ana : answers world0
   [SetConfig (Parsed cfg_analog_I_DIFF_W_DIFF_1XB); CpyMtrx [100; -32; 1; 0; 12; 1] 3 2;
   ExeMvm [1; 1; -1] [-120; 55] [100; -32; 1; 0; 12; 1] 3 2 "Unknown"; ExeMvm [0; 0; 0] [0; 10]
   [100; -32; 1; 0; 12; 1] 3 2 "Unknown"]%string
  = Some [[]; [0]; [0; -13759; -119; -1386]; [0; -320; 0; 10]].
Proof. vm_compute. reflexivity. Qed.

(** /repo/cpp/test/lib/mvm_tests.cpp, lines 49-73. *)
Example mvm_I_DIFF_W_DIFF_2XB_dig : answers world0
   [SetConfig (Parsed cfg_digital_I_DIFF_W_DIFF_2XB); CpyMtrx [100; -32; 1; 0; 12; 1] 3 2;
   ExeMvm [1; 1; -1] [-120; 55] [100; -32; 1; 0; 12; 1] 3 2 "Unknown"; ExeMvm [0; 0; 0] [0; 10]
   [100; -32; 1; 0; 12; 1] 3 2 "Unknown"]%string
  = Some [[]; [0]; [0; -13759; -119; -1386]; [0; -320; 0; 10]].
Proof. vm_compute. reflexivity. Qed.

(** /repo/cpp/test/lib/mvm_tests.cpp, lines 49-73. *)
Example mvm_I_DIFF_W_DIFF_2XB_ana : answers world0
   [SetConfig (Parsed cfg_analog_I_DIFF_W_DIFF_2XB); CpyMtrx [100; -32; 1; 0; 12; 1] 3 2;
   ExeMvm [1; 1; -1] [-120; 55] [100; -32; 1; 0; 12; 1] 3 2 "Unknown"; ExeMvm [0; 0; 0] [0; 10]
   [100; -32; 1; 0; 12; 1] 3 2 "Unknown"]%string
  = Some [[]; [0]; [0; -13759; -119; -1386]; [0; -320; 0; 10]].
Proof. vm_compute. reflexivity. Qed.

(** /repo/cpp/test/lib/mvm_tests.cpp, lines 75-99. *)
Example mvm_I_OFFS_W_DIFF_dig : answers world0
   [SetConfig (Parsed cfg_digital_I_OFFS_W_DIFF); CpyMtrx [100; -32; 1; 0; 12; 1] 3 2; ExeMvm
   [1; 1; -1] [-120; 55] [100; -32; 1; 0; 12; 1] 3 2 "Unknown"; ExeMvm [0; 0; 0] [0; 10] [100;
   -32; 1; 0; 12; 1] 3 2 "Unknown"]%string
  = Some [[]; [0]; [0; -13759; -119; -1386]; [0; -320; 0; 10]].
Proof. vm_compute. reflexivity. Qed.

(** /repo/cpp/test/lib/mvm_tests.cpp, lines 75-99. *)
Example mvm_I_OFFS_W_DIFF_ana : answers world0
   [SetConfig (Parsed cfg_analog_I_OFFS_W_DIFF); CpyMtrx [100; -32; 1; 0; 12; 1] 3 2; ExeMvm
   [1; 1; -1] [-120; 55] [100; -32; 1; 0; 12; 1] 3 2 "Unknown"; ExeMvm [0; 0; 0] [0; 10] [100;
   -32; 1; 0; 12; 1] 3 2 "Unknown"]%string
  = Some [[]; [0]; [0; -13759; -119; -1386]; [0; -320; 0; 10]].
Proof. vm_compute. reflexivity. Qed.

(** /repo/cpp/test/lib/mvm_tests.cpp, lines 101-125. *)
Example mvm_I_TC_W_DIFF_dig : answers world0
   [SetConfig (Parsed cfg_digital_I_TC_W_DIFF); CpyMtrx [100; -32; 1; 0; 12; 1] 3 2; ExeMvm [1;
   1; -1] [-120; 55] [100; -32; 1; 0; 12; 1] 3 2 "Unknown"; ExeMvm [0; 0; 0] [0; 10] [100; -32;
   1; 0; 12; 1] 3 2 "Unknown"]%string
  = Some [[]; [0]; [0; -13759; -119; -1386]; [0; -320; 0; 10]].
Proof. vm_compute. reflexivity. Qed.

(** /repo/cpp/test/lib/mvm_tests.cpp, lines 101-125. *)
Example mvm_I_TC_W_DIFF_ana : answers world0
   [SetConfig (Parsed cfg_analog_I_TC_W_DIFF); CpyMtrx [100; -32; 1; 0; 12; 1] 3 2; ExeMvm [1;
   1; -1] [-120; 55] [100; -32; 1; 0; 12; 1] 3 2 "Unknown"; ExeMvm [0; 0; 0] [0; 10] [100; -32;
   1; 0; 12; 1] 3 2 "Unknown"]%string
  = Some [[]; [0]; [0; -13759; -119; -1386]; [0; -320; 0; 10]].
Proof. vm_compute. reflexivity. Qed.

(** /repo/cpp/test/lib/mvm_tests.cpp, lines 127-151. *)
Example mvm_I_UINT_W_DIFF_dig : answers world0
   [SetConfig (Parsed cfg_digital_I_UINT_W_DIFF); CpyMtrx [100; -32; 1; 0; -12; 1] 3 2; ExeMvm
   [1; 1; -1] [120; 55] [100; -32; 1; 0; -12; 1] 3 2 "Unknown"; ExeMvm [0; 0; 0] [0; 10] [100;
   -32; 1; 0; -12; 1] 3 2 "Unknown"]%string
  = Some [[]; [0]; [0; 10241; 121; -1386]; [0; -320; 0; 10]].
Proof. vm_compute. reflexivity. Qed.

(** /repo/cpp/test/lib/mvm_tests.cpp, lines 127-151. *)
Example mvm_I_UINT_W_DIFF_ana : answers world0
   [SetConfig (Parsed cfg_analog_I_UINT_W_DIFF); CpyMtrx [100; -32; 1; 0; -12; 1] 3 2; ExeMvm
   [1; 1; -1] [120; 55] [100; -32; 1; 0; -12; 1] 3 2 "Unknown"; ExeMvm [0; 0; 0] [0; 10] [100;
   -32; 1; 0; -12; 1] 3 2 "Unknown"]%string
  = Some [[]; [0]; [0; 10241; 121; -1386]; [0; -320; 0; 10]].
Proof. vm_compute. reflexivity. Qed.

(** /repo/cpp/test/lib/mvm_tests.cpp, lines 153-177. *)
Example mvm_I_UINT_W_OFFS_dig : answers world0
   [SetConfig (Parsed cfg_digital_I_UINT_W_OFFS); CpyMtrx [100; -32; 1; 0; -12; 1] 3 2; ExeMvm
   [1; 1; -1] [120; 55] [100; -32; 1; 0; -12; 1] 3 2 "Unknown"; ExeMvm [0; 0; 0] [0; 10] [100;
   -32; 1; 0; -12; 1] 3 2 "Unknown"]%string
  = Some [[]; [0]; [0; 10241; 121; -1386]; [0; -320; 0; 10]].
Proof. vm_compute. reflexivity. Qed.

(** /repo/cpp/test/lib/mvm_tests.cpp, lines 153-177. *)
Example mvm_I_UINT_W_OFFS_ana : answers world0
   [SetConfig (Parsed cfg_analog_I_UINT_W_OFFS); CpyMtrx [100; -32; 1; 0; -12; 1] 3 2; ExeMvm
   [1; 1; -1] [120; 55] [100; -32; 1; 0; -12; 1] 3 2 "Unknown"; ExeMvm [0; 0; 0] [0; 10] [100;
   -32; 1; 0; -12; 1] 3 2 "Unknown"]%string
  = Some [[]; [0]; [0; 10241; 121; -1386]; [0; -320; 0; 10]].
Proof. vm_compute. reflexivity. Qed.

(** /repo/cpp/test/lib/mvm_tests.cpp, lines 179-202. *)
Example mvm_BNN_I_dig : answers world0
   [SetConfig (Parsed cfg_digital_BNN_I); CpyMtrx [1; 1; -1; -1; 1; -1] 3 2; ExeMvm [1; -1; 1]
   [1; 1] [1; 1; -1; -1; 1; -1] 3 2 "Unknown"; ExeMvm [0; 0; 0] [-1; 1] [1; 1; -1; -1; 1; -1] 3
   2 "Unknown"]%string
  = Some [[]; [0]; [0; 3; -3; 1]; [0; 0; 0; -2]].
Proof. vm_compute. reflexivity. Qed.

(** /repo/cpp/test/lib/mvm_tests.cpp, lines 179-202. *)
Example mvm_BNN_I_ana : answers world0
   [SetConfig (Parsed cfg_analog_BNN_I); CpyMtrx [1; 1; -1; -1; 1; -1] 3 2; ExeMvm [1; -1; 1]
   [1; 1] [1; 1; -1; -1; 1; -1] 3 2 "Unknown"; ExeMvm [0; 0; 0] [-1; 1] [1; 1; -1; -1; 1; -1] 3
   2 "Unknown"]%string
  = Some [[]; [0]; [0; 3; -3; 1]; [0; 0; 0; -2]].
Proof. vm_compute. reflexivity. Qed.

(** /repo/cpp/test/lib/mvm_tests.cpp, lines 204-228. *)
Example mvm_BNN_II_dig : answers world0
   [SetConfig (Parsed cfg_digital_BNN_II); CpyMtrx [1; 1; -1; -1; 1; -1] 3 2; ExeMvm [1; -1; 1]
   [1; 1] [1; 1; -1; -1; 1; -1] 3 2 "Unknown"; ExeMvm [0; 0; 0] [-1; 1] [1; 1; -1; -1; 1; -1] 3
   2 "Unknown"]%string
  = Some [[]; [0]; [0; 3; -3; 1]; [0; 0; 0; -2]].
Proof. vm_compute. reflexivity. Qed.

(** /repo/cpp/test/lib/mvm_tests.cpp, lines 204-228. *)
Example mvm_BNN_II_ana : answers world0
   [SetConfig (Parsed cfg_analog_BNN_II); CpyMtrx [1; 1; -1; -1; 1; -1] 3 2; ExeMvm [1; -1; 1]
   [1; 1] [1; 1; -1; -1; 1; -1] 3 2 "Unknown"; ExeMvm [0; 0; 0] [-1; 1] [1; 1; -1; -1; 1; -1] 3
   2 "Unknown"]%string
  = Some [[]; [0]; [0; 3; -3; 1]; [0; 0; 0; -2]].
Proof. vm_compute. reflexivity. Qed.

(** /repo/cpp/test/lib/mvm_tests.cpp, lines 230-254. *)
Example mvm_BNN_III_dig : answers world0
   [SetConfig (Parsed cfg_digital_BNN_III); CpyMtrx [1; 1; -1; -1; 1; -1] 3 2; ExeMvm [1; -1;
   1] [1; 1] [1; 1; -1; -1; 1; -1] 3 2 "Unknown"; ExeMvm [0; 0; 0] [-1; 1] [1; 1; -1; -1; 1;
   -1] 3 2 "Unknown"]%string
  = Some [[]; [0]; [0; 3; -3; 1]; [0; 0; 0; -2]].
Proof. vm_compute. reflexivity. Qed.

(** /repo/cpp/test/lib/mvm_tests.cpp, lines 230-254. *)
Example mvm_BNN_III_ana : answers world0
   [SetConfig (Parsed cfg_analog_BNN_III); CpyMtrx [1; 1; -1; -1; 1; -1] 3 2; ExeMvm [1; -1; 1]
   [1; 1] [1; 1; -1; -1; 1; -1] 3 2 "Unknown"; ExeMvm [0; 0; 0] [-1; 1] [1; 1; -1; -1; 1; -1] 3
   2 "Unknown"]%string
  = Some [[]; [0]; [0; 3; -3; 1]; [0; 0; 0; -2]].
Proof. vm_compute. reflexivity. Qed.

(** /repo/cpp/test/lib/mvm_tests.cpp, lines 256-280. *)
Example mvm_BNN_IV_dig : answers world0
   [SetConfig (Parsed cfg_digital_BNN_IV); CpyMtrx [1; 1; -1; -1; 1; -1] 3 2; ExeMvm [1; -1; 1]
   [1; 1] [1; 1; -1; -1; 1; -1] 3 2 "Unknown"; ExeMvm [0; 0; 0] [-1; 1] [1; 1; -1; -1; 1; -1] 3
   2 "Unknown"]%string
  = Some [[]; [0]; [0; 3; -3; 1]; [0; 0; 0; -2]].
Proof. vm_compute. reflexivity. Qed.

(** /repo/cpp/test/lib/mvm_tests.cpp, lines 256-280. *)
Example mvm_BNN_IV_ana : answers world0
   [SetConfig (Parsed cfg_analog_BNN_IV); CpyMtrx [1; 1; -1; -1; 1; -1] 3 2; ExeMvm [1; -1; 1]
   [1; 1] [1; 1; -1; -1; 1; -1] 3 2 "Unknown"; ExeMvm [0; 0; 0] [-1; 1] [1; 1; -1; -1; 1; -1] 3
   2 "Unknown"]%string
  = Some [[]; [0]; [0; 3; -3; 1]; [0; 0; 0; -2]].
Proof. vm_compute. reflexivity. Qed.

(** /repo/cpp/test/lib/mvm_tests.cpp, lines 282-305. *)
Example mvm_BNN_V_dig : answers world0
   [SetConfig (Parsed cfg_digital_BNN_V); CpyMtrx [1; 1; -1; -1; 1; -1] 3 2; ExeMvm [1; -1; 1]
   [1; 1] [1; 1; -1; -1; 1; -1] 3 2 "Unknown"; ExeMvm [0; 0; 0] [-1; 1] [1; 1; -1; -1; 1; -1] 3
   2 "Unknown"]%string
  = Some [[]; [0]; [0; 3; -3; 1]; [0; 0; 0; -2]].
Proof. vm_compute. reflexivity. Qed.

(** /repo/cpp/test/lib/mvm_tests.cpp, lines 282-305. *)
Example mvm_BNN_V_ana : answers world0
   [SetConfig (Parsed cfg_analog_BNN_V); CpyMtrx [1; 1; -1; -1; 1; -1] 3 2; ExeMvm [1; -1; 1]
   [1; 1] [1; 1; -1; -1; 1; -1] 3 2 "Unknown"; ExeMvm [0; 0; 0] [-1; 1] [1; 1; -1; -1; 1; -1] 3
   2 "Unknown"]%string
  = Some [[]; [0]; [0; 3; -3; 1]; [0; 0; 0; -2]].
Proof. vm_compute. reflexivity. Qed.

(** /repo/cpp/test/lib/mvm_tests.cpp, lines 307-331. *)
Example mvm_BNN_VI_dig : answers world0
   [SetConfig (Parsed cfg_digital_BNN_VI); CpyMtrx [1; 1; -1; -1; 1; -1] 3 2; ExeMvm [1; -1; 1]
   [1; 1] [1; 1; -1; -1; 1; -1] 3 2 "Unknown"; ExeMvm [0; 0; 0] [-1; 1] [1; 1; -1; -1; 1; -1] 3
   2 "Unknown"]%string
  = Some [[]; [0]; [0; 3; -3; 1]; [0; 0; 0; -2]].
Proof. vm_compute. reflexivity. Qed.

(** /repo/cpp/test/lib/mvm_tests.cpp, lines 307-331. *)
Example mvm_BNN_VI_ana : answers world0
   [SetConfig (Parsed cfg_analog_BNN_VI); CpyMtrx [1; 1; -1; -1; 1; -1] 3 2; ExeMvm [1; -1; 1]
   [1; 1] [1; 1; -1; -1; 1; -1] 3 2 "Unknown"; ExeMvm [0; 0; 0] [-1; 1] [1; 1; -1; -1; 1; -1] 3
   2 "Unknown"]%string
  = Some [[]; [0]; [0; 3; -3; 1]; [0; 0; 0; -2]].
Proof. vm_compute. reflexivity. Qed.

(** /repo/cpp/test/lib/mvm_tests.cpp, lines 333-356. *)
Example mvm_TNN_I_dig : answers world0
   [SetConfig (Parsed cfg_digital_TNN_I); CpyMtrx [1; 1; 1; -1; -1; -1; 0; -1; 1] 3 3; ExeMvm
   [1; -1; 1] [1; -1; 0] [1; 1; 1; -1; -1; -1; 0; -1; 1] 3 3 "Unknown"; ExeMvm [0; 0; 0] [1; 0;
   1] [1; 1; 1; -1; -1; -1; 0; -1; 1] 3 3 "Unknown"]%string
  = Some [[]; [0]; [0; 1; -1; 2]; [0; 2; -2; 1]].
Proof. vm_compute. reflexivity. Qed.

(** /repo/cpp/test/lib/mvm_tests.cpp, lines 333-356. *)
Example mvm_TNN_I_ana : answers world0
   [SetConfig (Parsed cfg_analog_TNN_I); CpyMtrx [1; 1; 1; -1; -1; -1; 0; -1; 1] 3 3; ExeMvm
   [1; -1; 1] [1; -1; 0] [1; 1; 1; -1; -1; -1; 0; -1; 1] 3 3 "Unknown"; ExeMvm [0; 0; 0] [1; 0;
   1] [1; 1; 1; -1; -1; -1; 0; -1; 1] 3 3 "Unknown"]%string
  = Some [[]; [0]; [0; 1; -1; 2]; [0; 2; -2; 1]].
Proof. vm_compute. reflexivity. Qed.

(** /repo/cpp/test/lib/mvm_tests.cpp, lines 358-382. *)
Example mvm_TNN_II_dig : answers world0
   [SetConfig (Parsed cfg_digital_TNN_II); CpyMtrx [1; 1; 1; -1; -1; -1; 0; -1; 1] 3 3; ExeMvm
   [1; -1; 1] [1; -1; 0] [1; 1; 1; -1; -1; -1; 0; -1; 1] 3 3 "Unknown"; ExeMvm [0; 0; 0] [1; 0;
   1] [1; 1; 1; -1; -1; -1; 0; -1; 1] 3 3 "Unknown"]%string
  = Some [[]; [0]; [0; 1; -1; 2]; [0; 2; -2; 1]].
Proof. vm_compute. reflexivity. Qed.

(** /repo/cpp/test/lib/mvm_tests.cpp, lines 358-382. *)
Example mvm_TNN_II_ana : answers world0
   [SetConfig (Parsed cfg_analog_TNN_II); CpyMtrx [1; 1; 1; -1; -1; -1; 0; -1; 1] 3 3; ExeMvm
   [1; -1; 1] [1; -1; 0] [1; 1; 1; -1; -1; -1; 0; -1; 1] 3 3 "Unknown"; ExeMvm [0; 0; 0] [1; 0;
   1] [1; 1; 1; -1; -1; -1; 0; -1; 1] 3 3 "Unknown"]%string
  = Some [[]; [0]; [0; 1; -1; 2]; [0; 2; -2; 1]].
Proof. vm_compute. reflexivity. Qed.

(** /repo/cpp/test/lib/mvm_tests.cpp, lines 384-408. *)
Example mvm_TNN_III_dig : answers world0
   [SetConfig (Parsed cfg_digital_TNN_III); CpyMtrx [1; 1; 1; -1; -1; -1; 0; -1; 1] 3 3; ExeMvm
   [1; -1; 1] [1; -1; 0] [1; 1; 1; -1; -1; -1; 0; -1; 1] 3 3 "Unknown"; ExeMvm [0; 0; 0] [1; 0;
   1] [1; 1; 1; -1; -1; -1; 0; -1; 1] 3 3 "Unknown"]%string
  = Some [[]; [0]; [0; 1; -1; 2]; [0; 2; -2; 1]].
Proof. vm_compute. reflexivity. Qed.

(** /repo/cpp/test/lib/mvm_tests.cpp, lines 384-408. *)
Example mvm_TNN_III_ana : answers world0
   [SetConfig (Parsed cfg_analog_TNN_III); CpyMtrx [1; 1; 1; -1; -1; -1; 0; -1; 1] 3 3; ExeMvm
   [1; -1; 1] [1; -1; 0] [1; 1; 1; -1; -1; -1; 0; -1; 1] 3 3 "Unknown"; ExeMvm [0; 0; 0] [1; 0;
   1] [1; 1; 1; -1; -1; -1; 0; -1; 1] 3 3 "Unknown"]%string
  = Some [[]; [0]; [0; 1; -1; 2]; [0; 2; -2; 1]].
Proof. vm_compute. reflexivity. Qed.

(** /repo/cpp/test/lib/mvm_tests.cpp, lines 410-434. *)
Example mvm_TNN_IV_split_dig : answers world0
   [SetConfig (Parsed cfg_digital_TNN_IV_split); CpyMtrx [1; 1; 1; -1; -1; -1; 0; -1; 1] 3 3;
   ExeMvm [1; -1; 1] [1; -1; 0] [1; 1; 1; -1; -1; -1; 0; -1; 1] 3 3 "Unknown"; ExeMvm [0; 0; 0]
   [1; 0; 1] [1; 1; 1; -1; -1; -1; 0; -1; 1] 3 3 "Unknown"]%string
  = Some [[]; [0]; [0; 1; -1; 2]; [0; 2; -2; 1]].
Proof. vm_compute. reflexivity. Qed.

(** /repo/cpp/test/lib/mvm_tests.cpp, lines 410-434. *)
Example mvm_TNN_IV_split_ana : answers world0
   [SetConfig (Parsed cfg_analog_TNN_IV_split); CpyMtrx [1; 1; 1; -1; -1; -1; 0; -1; 1] 3 3;
   ExeMvm [1; -1; 1] [1; -1; 0] [1; 1; 1; -1; -1; -1; 0; -1; 1] 3 3 "Unknown"; ExeMvm [0; 0; 0]
   [1; 0; 1] [1; 1; 1; -1; -1; -1; 0; -1; 1] 3 3 "Unknown"]%string
  = Some [[]; [0]; [0; 1; -1; 2]; [0; 2; -2; 1]].
Proof. vm_compute. reflexivity. Qed.

(** /repo/cpp/test/lib/mvm_tests.cpp, lines 436-460. *)
Example mvm_TNN_V_split_dig : answers world0
   [SetConfig (Parsed cfg_digital_TNN_V_split); CpyMtrx [1; 1; 1; -1; -1; -1; 0; -1; 1] 3 3;
   ExeMvm [1; -1; 1] [1; -1; 0] [1; 1; 1; -1; -1; -1; 0; -1; 1] 3 3 "Unknown"; ExeMvm [0; 0; 0]
   [1; 0; 1] [1; 1; 1; -1; -1; -1; 0; -1; 1] 3 3 "Unknown"]%string
  = Some [[]; [0]; [0; 1; -1; 2]; [0; 2; -2; 1]].
Proof. vm_compute. reflexivity. Qed.

(** /repo/cpp/test/lib/mvm_tests.cpp, lines 436-460. *)
Example mvm_TNN_V_split_ana : answers world0
   [SetConfig (Parsed cfg_analog_TNN_V_split); CpyMtrx [1; 1; 1; -1; -1; -1; 0; -1; 1] 3 3;
   ExeMvm [1; -1; 1] [1; -1; 0] [1; 1; 1; -1; -1; -1; 0; -1; 1] 3 3 "Unknown"; ExeMvm [0; 0; 0]
   [1; 0; 1] [1; 1; 1; -1; -1; -1; 0; -1; 1] 3 3 "Unknown"]%string
  = Some [[]; [0]; [0; 1; -1; 2]; [0; 2; -2; 1]].
Proof. vm_compute. reflexivity. Qed.

(** /repo/cpp/test/lib/adc_tests.cpp, lines 7-25. *)
Example adc_SymADCTest_I_DIFF : answers world0
   [SetConfig (Parsed cfg_analog_SYM_ADC_1); CpyMtrx [-128; -128; -128; -128; -128; 127; 127;
   127; 127; 127; -12; 88; 65; 0; -99] 3 5; ExeMvm [0; 0; 0] [-1; -1; -1; -1; -1] [-128; -128;
   -128; -128; -128; 127; 127; 127; 127; 127; -12; 88; 65; 0; -99] 3 5 "Unknown"]%string
  = Some [[]; [0]; [0; 640; -635; -42]].
Proof. vm_compute. reflexivity. Qed.

(** /repo/cpp/test/lib/adc_tests.cpp, lines 27-45. *)
Example adc_SymADCTest_I_OFFS : answers world0
   [SetConfig (Parsed cfg_analog_SYM_ADC_2); CpyMtrx [-128; -128; -128; -128; -128; 127; 127;
   127; 127; 127; -12; 88; 65; 0; -99] 3 5; ExeMvm [0; 0; 0] [1; 1; 1; 1; 1] [-128; -128; -128;
   -128; -128; 127; 127; 127; 127; 127; -12; 88; 65; 0; -99] 3 5 "Unknown"]%string
  = Some [[]; [0]; [0; -640; 635; 42]].
Proof. vm_compute. reflexivity. Qed.

(** /repo/cpp/test/lib/adc_tests.cpp, lines 47-64. *)
Example adc_PosADCTest : answers world0
   [SetConfig (Parsed cfg_analog_POS_ADC_1); CpyMtrx [127; 127; 127; 127; 127; -128; -128;
   -128; -128; -128; 0; 0; 0; 0; 0] 3 5; ExeMvm [0; 0; 0] [1; 1; 1; 1; 1] [127; 127; 127; 127;
   127; -128; -128; -128; -128; -128; 0; 0; 0; 0; 0] 3 5 "Unknown"]%string
  = Some [[]; [0]; [0; 635; -637; -1]].
Proof. vm_compute. reflexivity. Qed.

(** /repo/cpp/test/lib/adc_tests.cpp, lines 66-89. *)
Example adc_SymADCCalibrationTest : answers world0
   [SetConfig (Parsed cfg_analog_SYM_ADC_1); UpdateConfig (UJson (JObj [("adc_calib_dict", JObj
   [("test_layer", JArr [JFlt (d_lit (-10) (-1)); JFlt (d_lit 10 (-1))])]); ("adc_calib_mode",
   JStr "CALIB")])); CpyMtrx [-4; 4; -3; 3; -1; 1; 2; 1; 2; 1; 5; 6; 7; 8; -20] 3 5; ExeMvm [0;
   0; 0] [-1; -1; -1; -1; -1] [-4; 4; -3; 3; -1; 1; 2; 1; 2; 1; 5; 6; 7; 8; -20] 3 5
   "test_layer"]%string
  = Some [[]; [0]; [0]; [0; 1; -7; -6]].
Proof. vm_compute. reflexivity. Qed.

(** /repo/cpp/test/lib/parasitics_tests.cpp, lines 16-44. *)
Example parasitics_I_DIFF_W_DIFF_1XB : answers world0
   [SetConfig (Parsed cfg_analog_I_DIFF_W_DIFF_1XB); UpdateConfig (UJson (JObj [("V_read", JFlt
   (d_lit (-4) (-1))); ("parasitics", JBool true); ("w_res", JFlt (d_lit 1 (-2)))])); CpyMtrx
   [100; -32; 1; 0; 12; 1] 3 2; ExeMvm [1; 1; -1] [-120; 55] [100; -32; 1; 0; 12; 1] 3 2
   "Unknown"; ExeMvm [0; 0; 0] [0; 10] [100; -32; 1; 0; 12; 1] 3 2 "Unknown"]%string
  = Some [[]; [0]; [0]; [0; -13759; -119; -1386]; [0; -320; 0; 10]].
Proof. vm_compute. reflexivity. Qed.

(** /repo/cpp/test/lib/parasitics_tests.cpp, lines 46-74. *)
Example parasitics_I_DIFF_W_DIFF_2XB : answers world0
   [SetConfig (Parsed cfg_analog_I_DIFF_W_DIFF_2XB); UpdateConfig (UJson (JObj [("V_read", JFlt
   (d_lit (-4) (-1))); ("parasitics", JBool true); ("w_res", JFlt (d_lit 1 (-2)))])); CpyMtrx
   [100; -32; 1; 0; 12; 1] 3 2; ExeMvm [1; 1; -1] [-120; 55] [100; -32; 1; 0; 12; 1] 3 2
   "Unknown"; ExeMvm [0; 0; 0] [0; 10] [100; -32; 1; 0; 12; 1] 3 2 "Unknown"]%string
  = Some [[]; [0]; [0]; [0; -13759; -119; -1386]; [0; -320; 0; 10]].
Proof. vm_compute. reflexivity. Qed.

(** /repo/cpp/test/lib/parasitics_tests.cpp, lines 76-104. *)
Example parasitics_I_OFFS_W_DIFF : answers world0
   [SetConfig (Parsed cfg_analog_I_OFFS_W_DIFF); UpdateConfig (UJson (JObj [("V_read", JFlt
   (d_lit (-4) (-1))); ("parasitics", JBool true); ("w_res", JFlt (d_lit 1 (-2)))])); CpyMtrx
   [100; -32; 1; 0; 12; 1] 3 2; ExeMvm [1; 1; -1] [-120; 55] [100; -32; 1; 0; 12; 1] 3 2
   "Unknown"; ExeMvm [0; 0; 0] [0; 10] [100; -32; 1; 0; 12; 1] 3 2 "Unknown"]%string
  = Some [[]; [0]; [0]; [0; -13759; -119; -1386]; [0; -320; 0; 10]].
Proof. vm_compute. reflexivity. Qed.

(** /repo/cpp/test/lib/parasitics_tests.cpp, lines 106-134. *)
Example parasitics_I_UINT_W_DIFF : answers world0
   [SetConfig (Parsed cfg_analog_I_UINT_W_DIFF); UpdateConfig (UJson (JObj [("V_read", JFlt
   (d_lit (-4) (-1))); ("parasitics", JBool true); ("w_res", JFlt (d_lit 1 (-3)))])); CpyMtrx
   [100; -32; 1; 0; -12; 1] 3 2; ExeMvm [1; 1; -1] [120; 55] [100; -32; 1; 0; -12; 1] 3 2
   "Unknown"; ExeMvm [0; 0; 0] [0; 10] [100; -32; 1; 0; -12; 1] 3 2 "Unknown"]%string
  = Some [[]; [0]; [0]; [0; 10241; 121; -1386]; [0; -320; 0; 10]].
Proof. vm_compute. reflexivity. Qed.

(** /repo/cpp/test/lib/parasitics_tests.cpp, lines 136-164. *)
Example parasitics_I_UINT_W_OFFS : answers world0
   [SetConfig (Parsed cfg_analog_I_UINT_W_OFFS); UpdateConfig (UJson (JObj [("V_read", JFlt
   (d_lit (-4) (-1))); ("parasitics", JBool true); ("w_res", JFlt (d_lit 1 (-3)))])); CpyMtrx
   [100; -32; 1; 0; -12; 1] 3 2; ExeMvm [1; 1; -1] [120; 55] [100; -32; 1; 0; -12; 1] 3 2
   "Unknown"; ExeMvm [0; 0; 0] [0; 10] [100; -32; 1; 0; -12; 1] 3 2 "Unknown"]%string
  = Some [[]; [0]; [0]; [0; 10241; 121; -1386]; [0; -320; 0; 10]].
Proof. vm_compute. reflexivity. Qed.

(** /repo/cpp/test/lib/parasitics_tests.cpp, lines 166-194. *)
Example parasitics_BNN_I : answers world0
   [SetConfig (Parsed cfg_analog_BNN_I); UpdateConfig (UJson (JObj [("V_read", JFlt (d_lit (-4)
   (-1))); ("parasitics", JBool true); ("w_res", JInt 1)])); CpyMtrx [1; 1; -1; -1; 1; -1] 3 2;
   ExeMvm [1; -1; 1] [1; 1] [1; 1; -1; -1; 1; -1] 3 2 "Unknown"; ExeMvm [0; 0; 0] [-1; 1] [1;
   1; -1; -1; 1; -1] 3 2 "Unknown"]%string
  = Some [[]; [0]; [0]; [0; 3; -3; 1]; [0; 0; 0; -2]].
Proof. vm_compute. reflexivity. Qed.

(** /repo/cpp/test/lib/parasitics_tests.cpp, lines 196-224. *)
Example parasitics_BNN_II : answers world0
   [SetConfig (Parsed cfg_analog_BNN_II); UpdateConfig (UJson (JObj [("V_read", JFlt (d_lit
   (-4) (-1))); ("parasitics", JBool true); ("w_res", JInt 1)])); CpyMtrx [1; 1; -1; -1; 1; -1]
   3 2; ExeMvm [1; -1; 1] [1; 1] [1; 1; -1; -1; 1; -1] 3 2 "Unknown"; ExeMvm [0; 0; 0] [-1; 1]
   [1; 1; -1; -1; 1; -1] 3 2 "Unknown"]%string
  = Some [[]; [0]; [0]; [0; 3; -3; 1]; [0; 0; 0; -2]].
Proof. vm_compute. reflexivity. Qed.

(** /repo/cpp/test/lib/parasitics_tests.cpp, lines 226-254. *)
Example parasitics_BNN_III : answers world0
   [SetConfig (Parsed cfg_analog_BNN_III); UpdateConfig (UJson (JObj [("V_read", JFlt (d_lit
   (-4) (-1))); ("parasitics", JBool true); ("w_res", JInt 1)])); CpyMtrx [1; 1; -1; -1; 1; -1]
   3 2; ExeMvm [1; -1; 1] [1; 1] [1; 1; -1; -1; 1; -1] 3 2 "Unknown"; ExeMvm [0; 0; 0] [-1; 1]
   [1; 1; -1; -1; 1; -1] 3 2 "Unknown"]%string
  = Some [[]; [0]; [0]; [0; 3; -3; 1]; [0; 0; 0; -2]].
Proof. vm_compute. reflexivity. Qed.

(** /repo/cpp/test/lib/parasitics_tests.cpp, lines 256-284. *)
Example parasitics_BNN_IV : answers world0
   [SetConfig (Parsed cfg_analog_BNN_IV); UpdateConfig (UJson (JObj [("V_read", JFlt (d_lit
   (-4) (-1))); ("parasitics", JBool true); ("w_res", JInt 1)])); CpyMtrx [1; 1; -1; -1; 1; -1]
   3 2; ExeMvm [1; -1; 1] [1; 1] [1; 1; -1; -1; 1; -1] 3 2 "Unknown"; ExeMvm [0; 0; 0] [-1; 1]
   [1; 1; -1; -1; 1; -1] 3 2 "Unknown"]%string
  = Some [[]; [0]; [0]; [0; 3; -3; 1]; [0; 0; 0; -2]].
Proof. vm_compute. reflexivity. Qed.

(** /repo/cpp/test/lib/parasitics_tests.cpp, lines 286-314. *)
Example parasitics_BNN_V : answers world0
   [SetConfig (Parsed cfg_analog_BNN_V); UpdateConfig (UJson (JObj [("V_read", JFlt (d_lit (-4)
   (-1))); ("parasitics", JBool true); ("w_res", JInt 1)])); CpyMtrx [1; 1; -1; -1; 1; -1] 3 2;
   ExeMvm [1; -1; 1] [1; 1] [1; 1; -1; -1; 1; -1] 3 2 "Unknown"; ExeMvm [0; 0; 0] [-1; 1] [1;
   1; -1; -1; 1; -1] 3 2 "Unknown"]%string
  = Some [[]; [0]; [0]; [0; 3; -3; 1]; [0; 0; 0; -2]].
Proof. vm_compute. reflexivity. Qed.

(** /repo/cpp/test/lib/parasitics_tests.cpp, lines 316-344. *)
Example parasitics_BNN_VI : answers world0
   [SetConfig (Parsed cfg_analog_BNN_VI); UpdateConfig (UJson (JObj [("V_read", JFlt (d_lit
   (-4) (-1))); ("parasitics", JBool true); ("w_res", JInt 1)])); CpyMtrx [1; 1; -1; -1; 1; -1]
   3 2; ExeMvm [1; -1; 1] [1; 1] [1; 1; -1; -1; 1; -1] 3 2 "Unknown"; ExeMvm [0; 0; 0] [-1; 1]
   [1; 1; -1; -1; 1; -1] 3 2 "Unknown"]%string
  = Some [[]; [0]; [0]; [0; 3; -3; 1]; [0; 0; 0; -2]].
Proof. vm_compute. reflexivity. Qed.

(** /repo/cpp/test/lib/parasitics_tests.cpp, lines 346-374. *)
Example parasitics_TNN_I : answers world0
   [SetConfig (Parsed cfg_analog_TNN_I); UpdateConfig (UJson (JObj [("V_read", JFlt (d_lit (-4)
   (-1))); ("parasitics", JBool true); ("w_res", JInt 1)])); CpyMtrx [1; 1; 1; -1; -1; -1; 0;
   -1; 1] 3 3; ExeMvm [1; -1; 1] [1; -1; 0] [1; 1; 1; -1; -1; -1; 0; -1; 1] 3 3 "Unknown";
   ExeMvm [0; 0; 0] [1; 0; 1] [1; 1; 1; -1; -1; -1; 0; -1; 1] 3 3 "Unknown"]%string
  = Some [[]; [0]; [0]; [0; 1; -1; 2]; [0; 2; -2; 1]].
Proof. vm_compute. reflexivity. Qed.

(** /repo/cpp/test/lib/parasitics_tests.cpp, lines 376-404. *)
Example parasitics_TNN_II : answers world0
   [SetConfig (Parsed cfg_analog_TNN_II); UpdateConfig (UJson (JObj [("V_read", JFlt (d_lit
   (-4) (-1))); ("parasitics", JBool true); ("w_res", JInt 1)])); CpyMtrx [1; 1; 1; -1; -1; -1;
   0; -1; 1] 3 3; ExeMvm [1; -1; 1] [1; -1; 0] [1; 1; 1; -1; -1; -1; 0; -1; 1] 3 3 "Unknown";
   ExeMvm [0; 0; 0] [1; 0; 1] [1; 1; 1; -1; -1; -1; 0; -1; 1] 3 3 "Unknown"]%string
  = Some [[]; [0]; [0]; [0; 1; -1; 2]; [0; 2; -2; 1]].
Proof. vm_compute. reflexivity. Qed.

(** /repo/cpp/test/lib/parasitics_tests.cpp, lines 406-434. *)
Example parasitics_TNN_III : answers world0
   [SetConfig (Parsed cfg_analog_TNN_III); UpdateConfig (UJson (JObj [("V_read", JFlt (d_lit
   (-4) (-1))); ("parasitics", JBool true); ("w_res", JInt 1)])); CpyMtrx [1; 1; 1; -1; -1; -1;
   0; -1; 1] 3 3; ExeMvm [1; -1; 1] [1; -1; 0] [1; 1; 1; -1; -1; -1; 0; -1; 1] 3 3 "Unknown";
   ExeMvm [0; 0; 0] [1; 0; 1] [1; 1; 1; -1; -1; -1; 0; -1; 1] 3 3 "Unknown"]%string
  = Some [[]; [0]; [0]; [0; 1; -1; 2]; [0; 2; -2; 1]].
Proof. vm_compute. reflexivity. Qed.

(** /repo/cpp/test/lib/parasitics_tests.cpp, lines 436-464. *)
Example parasitics_TNN_IV_split : answers world0
   [SetConfig (Parsed cfg_analog_TNN_IV_split); UpdateConfig (UJson (JObj [("V_read", JFlt
   (d_lit (-4) (-1))); ("parasitics", JBool true); ("w_res", JInt 1)])); CpyMtrx [1; 1; 1; -1;
   -1; -1; 0; -1; 1] 3 3; ExeMvm [1; -1; 1] [1; -1; 0] [1; 1; 1; -1; -1; -1; 0; -1; 1] 3 3
   "Unknown"; ExeMvm [0; 0; 0] [1; 0; 1] [1; 1; 1; -1; -1; -1; 0; -1; 1] 3 3 "Unknown"]%string
  = Some [[]; [0]; [0]; [0; 1; -1; 2]; [0; 2; -2; 1]].
Proof. vm_compute. reflexivity. Qed.

(** /repo/cpp/test/lib/parasitics_tests.cpp, lines 466-494. *)
Example parasitics_TNN_V_split : answers world0
   [SetConfig (Parsed cfg_analog_TNN_V_split); UpdateConfig (UJson (JObj [("V_read", JFlt
   (d_lit (-4) (-1))); ("parasitics", JBool true); ("w_res", JInt 1)])); CpyMtrx [1; 1; 1; -1;
   -1; -1; 0; -1; 1] 3 3; ExeMvm [1; -1; 1] [1; -1; 0] [1; 1; 1; -1; -1; -1; 0; -1; 1] 3 3
   "Unknown"; ExeMvm [0; 0; 0] [1; 0; 1] [1; 1; 1; -1; -1; -1; 0; -1; 1] 3 3 "Unknown"]%string
  = Some [[]; [0]; [0]; [0; 1; -1; 2]; [0; 2; -2; 1]].
Proof. vm_compute. reflexivity. Qed.

(** Answers of the third call (an MVM) within the given bounds. *)
Definition third_within (h : list call) (lo hi : list Z) : bool :=
  match answers world0 h with
  | Some [_; _; res] =>
      (length res =? length lo)%nat && (length res =? length hi)%nat &&
      forallb (fun '(a, (b, c)) => (a <=? b) && (b <=? c)) (combine lo (combine res hi))
  | _ => false
  end.

(** /repo/int-bindings/test/adc_test.py, lines 22-65: each resolution with the bounds asserted. *)
Example py_sym_adc_i_diff_w_diff : forallb (fun '(b, lo, hi) =>
  third_within [SetConfig (Parsed (puts cfg_analog_SYM_ADC_1 [("I_BIT", JInt 1); ("SPLIT", JArr [JInt 8]);
      ("m_mode", JStr "I_DIFF_W_DIFF_1XB"); ("resolution", JInt b)]));
    CpyMtrx [-128; -128; -128; -128; -128; 127; 127; 127; 127; 127; -12; 88; 65; 0; -99] 3 5;
    PyMvm [0; 0; 0] [-1; -1; -1; -1; -1] [-128; -128; -128; -128; -128; 127; 127; 127; 127; 127; -12; 88; 65; 0; -99] 3 5] lo hi)%string
  [(2, [0; 2; -1272; -680], [0; 1278; 2; 596]); (3, [0; 428; -848; -254], [0; 852; -422; 170]);
  (4, [0; 549; -726; -133], [0; 731; -544; 49]); (5, [0; 598; -678; -84], [0; 682; -592; 1]);
  (6, [0; 619; -656; -63], [0; 661; -614; -21]); (7, [0; 630; -645; -52], [0; 650; -625; -32]);
  (8, [0; 635; -640; -47], [0; 645; -630; -37])] = true.
Proof. vm_compute. reflexivity. Qed.

(** /repo/int-bindings/test/adc_test.py, lines 67-110: each resolution with the bounds asserted. *)
Example py_sym_adc_i_offs_w_diff : forallb (fun '(b, lo, hi) =>
  third_within [SetConfig (Parsed (puts cfg_analog_SYM_ADC_2 [("I_BIT", JInt 1); ("SPLIT", JArr [JInt 8]);
      ("m_mode", JStr "I_OFFS_W_DIFF"); ("resolution", JInt b)]));
    CpyMtrx [-128; -128; -128; -128; -128; 127; 127; 127; 127; 127; -12; 88; 65; 0; -99] 3 5;
    PyMvm [0; 0; 0] [0; 0; 0; 0; 0] [-128; -128; -128; -128; -128; 127; 127; 127; 127; 127; -12; 88; 65; 0; -99] 3 5] lo hi)%string
  [(2, [0; -638; -638; -638], [0; 638; 638; 638]); (3, [0; -212; -212; -212], [0; 212; 212;
  212]); (4, [0; -91; -91; -91], [0; 91; 91; 91]); (5, [0; -43; -43; -43], [0; 43; 43; 43]);
  (6, [0; -21; -21; -21], [0; 21; 21; 21]); (7, [0; -10; -10; -10], [0; 10; 10; 10]); (8, [0;
  -5; -5; -5], [0; 5; 5; 5])] = true.
Proof. vm_compute. reflexivity. Qed.

(** /repo/int-bindings/test/adc_test.py, lines 112-155: each resolution with the bounds asserted. *)
Example py_sym_adc_i_tc_w_diff : forallb (fun '(b, lo, hi) =>
  third_within [SetConfig (Parsed (puts cfg_analog_SYM_ADC_3 [("I_BIT", JInt 1); ("SPLIT", JArr [JInt 8]);
      ("m_mode", JStr "I_TC_W_DIFF"); ("resolution", JInt b)]));
    CpyMtrx [-128; -128; -128; -128; -128; 127; 127; 127; 127; 127; -12; 88; 65; 0; -99] 3 5;
    PyMvm [0; 0; 0] [-1; -1; -1; -1; -1] [-128; -128; -128; -128; -128; 127; 127; 127; 127; 127; -12; 88; 65; 0; -99] 3 5] lo hi)%string
  [(2, [0; 2; -1272; -680], [0; 1278; 2; 596]); (3, [0; 428; -848; -254], [0; 852; -422; 170]);
  (4, [0; 549; -726; -133], [0; 731; -544; 49]); (5, [0; 598; -678; -84], [0; 682; -592; 1]);
  (6, [0; 619; -656; -63], [0; 661; -614; -21]); (7, [0; 630; -645; -52], [0; 650; -625; -32]);
  (8, [0; 635; -640; -47], [0; 645; -630; -37])] = true.
Proof. vm_compute. reflexivity. Qed.

(** /repo/int-bindings/test/adc_test.py, lines 157-200: each resolution with the bounds asserted. *)
Example py_sym_adc_i_uint_w_diff : forallb (fun '(b, lo, hi) =>
  third_within [SetConfig (Parsed (puts cfg_analog_SYM_ADC_4 [("I_BIT", JInt 1); ("SPLIT", JArr [JInt 8]);
      ("m_mode", JStr "I_UINT_W_DIFF"); ("resolution", JInt b)]));
    CpyMtrx [-128; -128; -128; -128; -128; 127; 127; 127; 127; 127; -12; 88; 65; 0; -99] 3 5;
    PyMvm [0; 0; 0] [1; 1; 1; 1; 1] [-128; -128; -128; -128; -128; 127; 127; 127; 127; 127; -12; 88; 65; 0; -99] 3 5] lo hi)%string
  [(2, [0; -1278; -2; -596], [0; -2; 1272; 680]); (3, [0; -852; 422; -170], [0; -428; 848;
  254]); (4, [0; -731; 544; -49], [0; -549; 726; 133]); (5, [0; -682; 592; -1], [0; -598; 678;
  84]); (6, [0; -661; 614; 21], [0; -619; 656; 63]); (7, [0; -650; 625; 32], [0; -630; 645;
  52]); (8, [0; -645; 630; 37], [0; -635; 640; 47])] = true.
Proof. vm_compute. reflexivity. Qed.

(** /repo/int-bindings/test/adc_test.py, lines 202-245: each resolution with the bounds asserted. *)
Example py_pos_adc_i_uint_w_offs : forallb (fun '(b, lo, hi) =>
  third_within [SetConfig (Parsed (puts cfg_analog_POS_ADC_1 [("I_BIT", JInt 1); ("SPLIT", JArr [JInt 8]);
      ("m_mode", JStr "I_UINT_W_OFFS"); ("resolution", JInt b)]));
    CpyMtrx [127; 127; 127; 127; 127; -128; -128; -128; -128; -128; 0; 0; 0; 0; 0] 3 5;
    PyMvm [0; 0; 0] [1; 1; 1; 1; 1] [127; 127; 127; 127; 127; -128; -128; -128; -128; -128; 0; 0; 0; 0; 0] 3 5] lo hi)%string
  [(3, [0; 526; -749; -109], [0; 744; -531; 109]); (4, [0; 584; -691; -51], [0; 686; -589;
  51]); (5, [0; 610; -665; -25], [0; 660; -615; 25]); (6, [0; 623; -652; -12], [0; 647; -628;
  12]); (7, [0; 629; -646; -6], [0; 641; -634; 6]); (8, [0; 632; -643; -3], [0; 638; -637; 3])] = true.
Proof. vm_compute. reflexivity. Qed.
