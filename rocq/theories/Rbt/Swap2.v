(* Exchanging a node with its successor (node.rs:523-573): the successor is the left child of the right child. *)
From Coq Require Import NArith List Bool Lia Permutation.
From Verif Require Import Base.Prelude Rbt.Model Rbt.Tree Rbt.Heap Rbt.Rot Rbt.FixAdd Rbt.FixDel Rbt.SwapBase.
Import ListNotations.
Local Open Scope N_scope.

Section Swap.
Context {D : Type}.
Notation st := (@st D).

Lemma swap_one (s : st) C c ca al ia ar x c3 p3 r3 c2 y R :
  let A := T ca al ia ar in
  Inv s (plug C (T c A x (plug [FL c3 p3 r3] (T c2 E y R)))) ->
  exists s', swap x y s = Val (tt, s') /\ swapped s s' (plug C (T c A x (plug [FL c3 p3 r3] (T c2 E y R)))) (plug C (T c A y (plug [FL c3 p3 r3] (T c2 E x R)))).
Proof.
  intros A. subst A. cbn [plug plug1]. intros [R0 ND BD RT]. unfold swap, swapped.
  rewrite rep_plug in R0. destruct R0 as [RC RR].
  cbn [rep root_of] in RR.
  destruct RR as (X1 & X2 & X3 & X4 & (A1 & A2 & A3 & A4 & RAl & RAr) & (Q1 & Q2 & Q3 & Q4 & (Y1 & Y2 & Y3 & Y4 & _ & RR) & RQ)).
  count_out ND.
  assert (Hx : x < s_cap s) by (apply BD; cn_goal; clear; lia).
    assert (Hy : y < s_cap s) by (apply BD; cn_goal; clear; lia).
    assert (Hia : ia < s_cap s) by (apply BD; cn_goal; clear; lia).
    assert (Hp3 : p3 < s_cap s) by (apply BD; cn_goal; clear; lia).
    assert (Nxy : x <> y) by ne ND.
    assert (Nxia : x <> ia) by ne ND.
    assert (Nxp3 : x <> p3) by ne ND.
    assert (Nyia : y <> ia) by ne ND.
    assert (Nyp3 : y <> p3) by ne ND.
    assert (Niap3 : ia <> p3) by ne ND.
  destruct R as [|cr rl ir rr].
  - count_out ND.
    destruct C as [|[c0 i0 r0|c0 l0 i0] C'].
    + count_out ND. xexec.
      eexists. split; [reflexivity|]. split; [|split; [reflexivity|x_keeps_goal]].
      rewrite rep_plug; cbn [repc rep root_of par_of f_idx]; repeat match goal with |- _ /\ _ => split end; x_cell_goal ND.
    + count_out ND. assert (Hi0 : i0 < s_cap s) by (apply BD; cn_goal; clear; lia).
      assert (Nxi0 : x <> i0) by ne ND.
      assert (Nyi0 : y <> i0) by ne ND.
      assert (Niai0 : ia <> i0) by ne ND.
      assert (Np3i0 : p3 <> i0) by ne ND.
      cbn [repc] in RC. destruct RC as (P1 & P2 & P3 & P4 & RP & RC).
      xexec.
      eexists. split; [reflexivity|]. split; [|split; [reflexivity|x_keeps_goal]].
      rewrite rep_plug; cbn [repc rep root_of par_of f_idx]; repeat match goal with |- _ /\ _ => split end; x_cell_goal ND.
    + count_out ND. assert (Hi0 : i0 < s_cap s) by (apply BD; cn_goal; clear; lia).
      assert (Nxi0 : x <> i0) by ne ND.
      assert (Nyi0 : y <> i0) by ne ND.
      assert (Niai0 : ia <> i0) by ne ND.
      assert (Np3i0 : p3 <> i0) by ne ND.
      cbn [repc] in RC. destruct RC as (P1 & P2 & P3 & P4 & RP & RC).
      assert (Npl : peq (root_of l0) (Some x) = false) by (destruct l0; [reflexivity|]; count_out ND; apply peq_diff; ne ND).
      xexec.
      eexists. split; [reflexivity|]. split; [|split; [reflexivity|x_keeps_goal]].
      rewrite rep_plug; cbn [repc rep root_of par_of f_idx]; repeat match goal with |- _ /\ _ => split end; x_cell_goal ND.
  - count_out ND. assert (Hir : ir < s_cap s) by (apply BD; cn_goal; clear; lia).
    assert (Nxir : x <> ir) by ne ND.
    assert (Nyir : y <> ir) by ne ND.
    assert (Niair : ia <> ir) by ne ND.
    assert (Np3ir : p3 <> ir) by ne ND.
    cbn [rep] in RR. destruct RR as (Z1 & Z2 & Z3 & Z4 & RZl & RZr).
    destruct C as [|[c0 i0 r0|c0 l0 i0] C'].
    + count_out ND. xexec.
      eexists. split; [reflexivity|]. split; [|split; [reflexivity|x_keeps_goal]].
      rewrite rep_plug; cbn [repc rep root_of par_of f_idx]; repeat match goal with |- _ /\ _ => split end; x_cell_goal ND.
    + count_out ND. assert (Hi0 : i0 < s_cap s) by (apply BD; cn_goal; clear; lia).
      assert (Nxi0 : x <> i0) by ne ND.
      assert (Nyi0 : y <> i0) by ne ND.
      assert (Niai0 : ia <> i0) by ne ND.
      assert (Np3i0 : p3 <> i0) by ne ND.
      assert (Niri0 : ir <> i0) by ne ND.
      cbn [repc] in RC. destruct RC as (P1 & P2 & P3 & P4 & RP & RC).
      xexec.
      eexists. split; [reflexivity|]. split; [|split; [reflexivity|x_keeps_goal]].
      rewrite rep_plug; cbn [repc rep root_of par_of f_idx]; repeat match goal with |- _ /\ _ => split end; x_cell_goal ND.
    + count_out ND. assert (Hi0 : i0 < s_cap s) by (apply BD; cn_goal; clear; lia).
      assert (Nxi0 : x <> i0) by ne ND.
      assert (Nyi0 : y <> i0) by ne ND.
      assert (Niai0 : ia <> i0) by ne ND.
      assert (Np3i0 : p3 <> i0) by ne ND.
      assert (Niri0 : ir <> i0) by ne ND.
      cbn [repc] in RC. destruct RC as (P1 & P2 & P3 & P4 & RP & RC).
      assert (Npl : peq (root_of l0) (Some x) = false) by (destruct l0; [reflexivity|]; count_out ND; apply peq_diff; ne ND).
      xexec.
      eexists. split; [reflexivity|]. split; [|split; [reflexivity|x_keeps_goal]].
      rewrite rep_plug; cbn [repc rep root_of par_of f_idx]; repeat match goal with |- _ /\ _ => split end; x_cell_goal ND.
Qed.

End Swap.
