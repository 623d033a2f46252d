(** What a user may expect of settings, independently of the code *)
From Verif Require Export Spec Spec_Par Model_Settings.

(** Thresholds in their order: above zero, and two cores before many *)
Definition ordered (s : settings) : Prop :=
  0 < med_dual_core_threshold s < med_multi_core_threshold s /\ 0 < large_dual_core_threshold s < large_multi_core_threshold s.
(** No operation starts more threads than cores were allowed, and all of the work is done by somebody. *)
Definition within_limit (s : settings) : Prop := forall n c, 1 <= determine_number_of_chunks n c s <= core_limit s.
(** More data, more threads *)
Definition grows (s : settings) : Prop := forall n m c, n <= m -> determine_number_of_chunks n c s <= determine_number_of_chunks m c s.
(** Thresholds which a calibration may give *)
Definition plausible (c : calibration) : Prop :=
  5 * thousand <= c_med_dual c <= 100 * thousand /\ c_med_dual c < c_med_multi c <= 200 * thousand /\
  5 * thousand <= c_large_dual c <= 100 * thousand /\ c_large_dual c < c_large_multi c <= 200 * thousand.
