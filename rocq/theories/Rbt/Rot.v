(* Rotations and recolouring. *)
From Coq Require Import NArith List Bool Lia Permutation.
From Verif Require Import Base.Prelude Rbt.Model Rbt.Tree Rbt.Heap.
Import ListNotations.
Local Open Scope N_scope.

Section Rot.
Context {D : Type}.
Notation st := (@st D).

Lemma rotL_ok (s : st) C c a x c' b y d : Inv s (plug C (T c a x (T c' b y d))) ->
  exists s', new_top (rotate_left x) s = Val (tt, s') /\
    Inv s' (plug C (T c' (T c a x b) y d)) /\
    keeps s s' (ino (plug C (T c a x (T c' b y d)))).
Proof.
  intros [R ND BD RT]. count_out ND.
  assert (Hx : x < s_cap s) by (apply BD; cn_goal; lia).
  assert (Hy : y < s_cap s) by (apply BD; cn_goal; lia).
  assert (Nxy : x <> y) by ne ND.
  rewrite rep_plug in R. destruct R as [RC RR]. cbn [rep root_of] in RR.
  destruct RR as (X1 & X2 & X3 & X4 & RA & Y1 & Y2 & Y3 & Y4 & RB & RD).
  unfold new_top, rotate_left.
  destruct b as [|cb bl ib br];
    [ count_out ND | count_out ND; assert (Hb : ib < s_cap s) by (apply BD; cn_goal; lia);
       assert (Nbx : ib <> x) by ne ND; assert (Nby : ib <> y) by ne ND;
       cbn [rep] in RB; destruct RB as (B1 & B2 & B3 & B4 & RBl & RBr) ];
  (destruct C as [|[c0 i0 r0|c0 l0 i0] C'];
    [ count_out ND | count_out ND; assert (Hp : i0 < s_cap s) by (apply BD; cn_goal; lia);
       assert (Npx : i0 <> x) by ne ND; assert (Npy : i0 <> y) by ne ND;
       try (assert (Npb : i0 <> ib) by ne ND);
       cbn [repc] in RC; destruct RC as (P1 & P2 & P3 & P4 & RP & RC)| count_out ND; assert (Hp : i0 < s_cap s) by (apply BD; cn_goal; lia);
       assert (Npx : i0 <> x) by ne ND; assert (Npy : i0 <> y) by ne ND;
       try (assert (Npb : i0 <> ib) by ne ND);
       cbn [repc] in RC; destruct RC as (P1 & P2 & P3 & P4 & RP & RC) ]);
  try (assert (Npl : peq (root_of l0) (Some x) = false) by
        (destruct l0; [reflexivity|]; count_out ND; apply peq_diff; ne ND));
  exec;
  (eexists; split; [reflexivity|]; split; [inv_goal ND BD RT | keeps_goal]).
Qed.

Lemma rotR_ok (s : st) C c d x c' b y a : Inv s (plug C (T c (T c' a y b) x d)) ->
  exists s', new_top (rotate_right x) s = Val (tt, s') /\
    Inv s' (plug C (T c' a y (T c b x d))) /\
    keeps s s' (ino (plug C (T c (T c' a y b) x d))).
Proof.
  intros [R ND BD RT]. count_out ND.
  assert (Hx : x < s_cap s) by (apply BD; cn_goal; lia).
  assert (Hy : y < s_cap s) by (apply BD; cn_goal; lia).
  assert (Nxy : x <> y) by ne ND.
  rewrite rep_plug in R. destruct R as [RC RR]. cbn [rep root_of] in RR.
  destruct RR as (X1 & X2 & X3 & X4 & (Y1 & Y2 & Y3 & Y4 & RA & RB) & RD).
  unfold new_top, rotate_right.
  destruct b as [|cb bl ib br];
    [ count_out ND | count_out ND; assert (Hb : ib < s_cap s) by (apply BD; cn_goal; lia);
       assert (Nbx : ib <> x) by ne ND; assert (Nby : ib <> y) by ne ND;
       cbn [rep] in RB; destruct RB as (B1 & B2 & B3 & B4 & RBl & RBr) ];
  (destruct C as [|[c0 i0 r0|c0 l0 i0] C'];
    [ count_out ND | count_out ND; assert (Hp : i0 < s_cap s) by (apply BD; cn_goal; lia);
       assert (Npx : i0 <> x) by ne ND; assert (Npy : i0 <> y) by ne ND;
       try (assert (Npb : i0 <> ib) by ne ND);
       cbn [repc] in RC; destruct RC as (P1 & P2 & P3 & P4 & RP & RC)| count_out ND; assert (Hp : i0 < s_cap s) by (apply BD; cn_goal; lia);
       assert (Npx : i0 <> x) by ne ND; assert (Npy : i0 <> y) by ne ND;
       try (assert (Npb : i0 <> ib) by ne ND);
       cbn [repc] in RC; destruct RC as (P1 & P2 & P3 & P4 & RP & RC) ]);
  try (assert (Npl : peq (root_of l0) (Some x) = false) by
        (destruct l0; [reflexivity|]; count_out ND; apply peq_diff; ne ND));
  exec;
  (eexists; split; [reflexivity|]; split; [inv_goal ND BD RT | keeps_goal]).
Qed.

Lemma set_color_ok (s : st) C c l x r c' : Inv s (plug C (T c l x r)) ->
  exists s', modify x (fun k => with_color k c') s = Val (tt, s') /\ Inv s' (plug C (T c' l x r)) /\
    keeps s s' (ino (plug C (T c l x r))).
Proof.
  intros [R ND BD RT]. count_out ND.
  assert (Hx : x < s_cap s) by (apply BD; cn_goal; lia).
  rewrite rep_plug in R. destruct R as [RC RR]. cbn [rep root_of] in *.
  destruct RR as (X1 & X2 & X3 & X4 & RA & RB).
  rd_step.
  eexists; split; [reflexivity|]; split; [inv_goal ND BD RT | keeps_goal].
Qed.

End Rot.
