(** What the approximated functions stand for (C61) *)
From Verif Require Export Model_Approx Spec Spec_Par Spec_Complex.

Section approx.
Context {A : Type} `{Num A} `{Math A}.
(** The function in the name *)
Definition stands_for (f : approximation A) (x : A) : A :=
  match f with
  | Ln_approx => rmath Ln x
  | Exp_approx => rmath Exp x
  | Sin_approx => rmath Sin x
  | Cos_approx => rmath Cos x
  | Log_approx b => rlog x b
  | Expf_approx b => rpowf b x
  | Powf_approx y => rpowf x y
  end.
(** The logarithm and the powers by way of the natural logarithm: log_b x = ln x / ln b, b^x = exp (ln b * x), x^y = exp (ln x * y). *)
Definition by_way_of_ln (f : approximation A) (x : A) : A :=
  match f with
  | Log_approx b => (rmath Ln x / rmath Ln b)%num
  | Expf_approx b => rmath Exp (rmath Ln b * x)%num
  | Powf_approx y => rmath Exp (rmath Ln x * y)%num
  | f => stands_for f x
  end.
End approx.
