(** The remaining functions on the real numbers. *)
From Verif Require Export NumsFlt NumsR Model_Window.
Local Open Scope R_scope.

Definition Rleb (x y : R) : bool := if Rle_dec x y then true else false.
Definition Reqb (x y : R) : bool := if Req_EM_T x y then true else false.
Global Instance Rtrig : Trig R := {| fpi := PI; fsin := sin; fcos := cos; fleb := Rleb; feqb := Reqb |}.

Lemma Rltb_true x y : Rltb x y = true <-> x < y.
Proof. unfold Rltb. by destruct (Rlt_dec x y). Qed.
Lemma Rltb_false x y : Rltb x y = false <-> ~ x < y.
Proof. unfold Rltb. by destruct (Rlt_dec x y). Qed.
Lemma Rleb_true x y : Rleb x y = true <-> x <= y.
Proof. unfold Rleb. by destruct (Rle_dec x y). Qed.
Lemma Reqb_true x y : Reqb x y = true <-> x = y.
Proof. unfold Reqb. by destruct (Req_EM_T x y). Qed.

(** For the integers of the examples; the trigonometric functions are not available. *)
Global Instance Zrem : Rem Z := {| frem := Z.rem; fabs := Z.abs |}.
Global Instance Ztrig : Trig Z := {| fpi := 3%Z; fsin := fun x => x; fcos := fun x => x; fleb := Z.leb; feqb := Z.eqb |}.
