(** Specification vocabulary for statistics. *)
From Verif Require Export Spec_Sum Model_Stats.

(** On the elements of [l] the comparison [lt] is a strict weak order. Real numbers without NaN and complex numbers compared by their norm are like this. *)
Definition ordered {P} (lt : P -> P -> bool) (l : list P) : Prop :=
  (forall x, x ∈ l -> lt x x = false) /\
  (forall x y z, x ∈ l -> y ∈ l -> z ∈ l -> lt x y = true -> lt y z = true -> lt x z = true) /\
  (forall x y z, x ∈ l -> y ∈ l -> z ∈ l -> lt x y = false -> lt y z = false -> lt x z = false).

(** Element [i] of [l] is [x], no element is less than [x], and the elements before [i] are greater *)
Definition first_min {P} (lt : P -> P -> bool) (l : list P) (i : nat) (x : P) : Prop :=
  l !! i = Some x /\ forall j y, l !! j = Some y -> lt y x = false /\ (j < i -> lt x y = true).
Definition first_max {P} (lt : P -> P -> bool) (l : list P) (i : nat) (x : P) : Prop :=
  l !! i = Some x /\ forall j y, l !! j = Some y -> lt x y = false /\ (j < i -> lt y x = true).
(** The same without "first" *)
Definition some_min {P} (lt : P -> P -> bool) (l : list P) (i : nat) (x : P) : Prop :=
  l !! i = Some x /\ forall j y, l !! j = Some y -> lt y x = false.
Definition some_max {P} (lt : P -> P -> bool) (l : list P) (i : nat) (x : P) : Prop :=
  l !! i = Some x /\ forall j y, l !! j = Some y -> lt x y = false.

(** The start value of a sum is neutral (for floating point numbers: up to the sign of zero) *)
Definition zero_neutral (P : Type) `{StatOps P} : Prop := forall x : P, t_add t_zero x = x.

(** The data is comparable and lies between the start values of the minimum and of the maximum (infinities for real numbers) *)
Definition comparable {P} `{StatOps P} (l : list P) : Prop :=
  ordered t_lt (t_min0 :: t_max0 :: l) /\
  forall x, x ∈ l -> (x = t_min0 \/ t_lt x t_min0 = true) /\ (x = t_max0 \/ t_lt t_max0 x = true).

(** Part [i] of the list of arrived parts takes part in the minimum: it is the first one, or an earlier part had no smaller maximum *)
Definition takes_part {P} `{StatOps P} (parts : list (statistics P)) (i : nat) (part : statistics P) : Prop :=
  parts !! i = Some part /\
  (i = 0 \/ exists j earlier, j < i /\ parts !! j = Some earlier /\ t_lt (st_max earlier) (st_max part) = false).

(** [st] are the statistics of [l]; sums are added from the left to the right *)
Definition totals_of {P} `{StatOps P} (l : list P) (st : statistics P) : Prop :=
  st_sum st = foldl t_add t_zero l /\
  st_count st = length l /\
  st_average st = t_divn (foldl t_add t_zero l) (length l) /\
  st_rms st = t_sqrt (t_divn (foldl t_add t_zero (map (fun x => t_mul x x) l)) (length l)).
Definition statistics_of {P} `{StatOps P} (l : list P) (st : statistics P) : Prop :=
  totals_of l st /\
  (l <> [] -> first_min t_lt l (st_min_index st) (st_min st) /\ first_max t_lt l (st_max_index st) (st_max st)).

(** [lb] has the elements [b], [b + k], [b + 2 * k] ... of [l] *)
Definition is_bucket {P} (k b : nat) (l lb : list P) : Prop := forall j, lb !! j = l !! (b + j * k).
