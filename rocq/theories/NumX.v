(* Extended numbers: exact rationals plus the IEEE special values.
   Models numpy float64 without rounding and without signed zero. *)
From Verif Require Import Prelude.

Inductive xq := Fin (q : Q) | PInf | NInf | NaN.

Definition xopp (x : xq) : xq :=
  match x with Fin q => Fin (- q) | PInf => NInf | NInf => PInf | NaN => NaN end.
Definition xadd (x y : xq) : xq :=
  match x, y with
  | NaN, _ | _, NaN => NaN
  | PInf, NInf | NInf, PInf => NaN
  | PInf, _ | _, PInf => PInf
  | NInf, _ | _, NInf => NInf
  | Fin a, Fin b => Fin (a + b)
  end.
Definition xsub (x y : xq) : xq := xadd x (xopp y).
Definition xsgn (x : xq) : Z :=
  match x with Fin q => Z.sgn (Qnum q) | PInf => 1%Z | NInf => (-1)%Z | NaN => 0%Z end.
Definition xmul (x y : xq) : xq :=
  match x, y with
  | NaN, _ | _, NaN => NaN
  | Fin a, Fin b => Fin (a * b)
  | _, _ => match (xsgn x * xsgn y)%Z with
            | Z0 => NaN | Zpos _ => PInf | Zneg _ => NInf end
  end.
Definition xabs (x : xq) : xq :=
  match x with Fin q => Fin (Qabs q) | NInf => PInf | _ => x end.
(* IEEE comparisons: anything with NaN is false *)
Definition xle (x y : xq) : bool :=
  match x, y with
  | NaN, _ | _, NaN => false
  | NInf, _ | _, PInf => true
  | PInf, _ | _, NInf => false
  | Fin a, Fin b => Qle_bool a b
  end.
Definition xlt (x y : xq) : bool :=
  match x, y with
  | NaN, _ | _, NaN => false
  | _, NInf | PInf, _ => false
  | NInf, _ | _, PInf => true
  | Fin a, Fin b => qlt a b
  end.
(* numpy's sort order: IEEE <= with NaN after everything *)
Definition nple (x y : xq) : bool :=
  match x, y with
  | _, NaN => true
  | NaN, _ => false
  | _, _ => xle x y
  end.
Definition isfinite (x : xq) : bool := match x with Fin _ => true | _ => false end.
Definition isnan (x : xq) : bool := match x with NaN => true | _ => false end.
(* np.min of a non-empty array: NaN propagates *)
Definition xmin2 (x y : xq) : xq :=
  match x, y with NaN, _ | _, NaN => NaN | _, _ => if xle x y then x else y end.
Fixpoint npmin (x : xq) (l : list xq) : xq :=
  match l with [] => x | y :: ys => npmin (xmin2 x y) ys end.

Lemma nple_total : total_b nple.
Proof.
  intros [a| | |] [b| | |]; cbn; auto.
  destruct (Qle_bool a b) eqn:E; [left; reflexivity|right].
  apply Qle_bool_iff. apply Qlt_le_weak, Qnot_le_lt; intros Hc.
  apply Qle_bool_iff in Hc; congruence.
Qed.
Lemma nple_trans : trans_b nple.
Proof.
  intros [a| | |] [b| | |] [c| | |]; cbn; auto; try discriminate.
  rewrite !Qle_bool_iff; intros; eapply Qle_trans; eassumption.
Qed.
