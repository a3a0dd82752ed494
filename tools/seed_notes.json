{
 "P5": {
  "theorems_failed": [
   "C16_peaks_owner"
  ],
  "note": "the lemma changeowner_cases under C16 no longer proves"
 },
 "P10": {
  "theorems_failed": [
   "C12"
  ],
  "note": "the lemma pack_frame under the C12 theorems no longer proves"
 },
 "P14": {
  "theorems_failed": [
   "C17"
  ],
  "note": "the lemma value_loop_ok under the C17 theorems no longer proves"
 },
 "QM8": {
  "tightened": [
   "C159_one_point"
  ]
 },
 "SM3": {
  "tightened": [
   "C161_pdf_attributes"
  ]
 },
 "CL12": {
  "tightened": [
   "C152_saving"
  ]
 },
 "CL16": {
  "tightened": [
   "C144_exactly_one_file"
  ]
 },
 "DT14": {
  "tightened": [
   "C188_blank_characters"
  ]
 },
 "LL10": {
  "tightened": [
   "C173_unopened_file"
  ]
 },
 "MP8": {
  "tightened": [
   "C175_other_curves"
  ]
 },
 "V11": {
  "tightened": [
   "C130_setdata"
  ]
 },
 "V12": {
  "tightened": [
   "C132_baseline_estimation"
  ]
 },
 "PL7": {
  "note": "the edited branch is dead: the results file loaded by the plot command always has a result when this point is reached, so no claim changes"
 },
 "VW11": {
  "note": "the edited path is dead: animate raises before it restores anything (C183)"
 },
 "OW6": {
  "note": "C215 is not broken by the edit: the misplaced flag is the flag of a cluster with the same ownership"
 },
 "PW1": {
  "note": "the edited case lies outside the hypothesis of C215; recorded as the violation C216"
 },
 "X11": {
  "note": "the claim was then stated as C96 (each distant peak enters the fit exactly once)"
 },
 "TR11": {
  "theorems_failed": [
   "C219"
  ],
  "note": "the lemma recurse_deep under C219 no longer type checks"
 },
 "TR14": {
  "theorems_failed": [
   "C219"
  ],
  "note": "the lemma all_deep under C219 no longer type checks"
 },
 "LD6": {
  "theorems_failed": [
   "C130",
   "C131"
  ],
  "note": "the lemma loadpdf of LoadProps no longer proves"
 },
 "FI5": {
  "theorems_failed": [
   "C192_data_set_files"
  ],
  "note": "the statement of C192 no longer proves"
 },
 "EX26": {
  "theorems_failed": [
   "C49"
  ],
  "note": "the lemma boundary_holds of ExtractProofs under C49 no longer proves"
 },
 "DT10": {
  "theorems_failed": [
   "C186"
  ],
  "note": "the lemma about pairs under C186 no longer proves"
 },
 "SP1": {
  "theorems_failed": [
   "C220_history",
   "C220_run"
  ],
  "note": "the lemma extracter_at under C220 no longer proves"
 },
 "RS9": {
  "theorems_failed": [
   "C156_example"
  ]
 },
 "CL3": {
  "note_invalid": true
 },
 "PE6": {
  "note_invalid": true
 },
 "PE7": {
  "note_invalid": true
 },
 "PE8": {
  "note_invalid": true
 },
 "DT2": {
  "note_invalid": true
 },
 "EL8": {
  "note_invalid": true
 },
 "ED1": {
  "note_invalid": true
 },
 "FD4": {
  "note": "the claim is still true of the edited program: C215 holds for any condition under which the last cluster is refitted (the definition only predicts which copies are made)"
 }
}