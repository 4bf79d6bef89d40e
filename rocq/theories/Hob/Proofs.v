(** * Walking a HOB list *)

From Coq Require Import ZifyBool ZifyNat ZifyN.
From Verif Require Import Base.Prelude Base.Bytes Hob.Spec Hob.Model.
Open Scope N_scope.

(** The region [m] holds the bytes [bs] at address [a]. *)
Definition holds (m : region) (a : N) (bs : list N) : Prop :=
  exists pre post, r_bytes m = pre ++ bs ++ post /\ a = r_base m + N.of_nat (length pre).

Lemma holds_app m a b1 b2 : holds m a (b1 ++ b2) ->
  holds m a b1 /\ holds m (a + N.of_nat (length b1)) b2.
Proof.
  intros (pre & post & E & Ea). split.
  - exists pre, (b2 ++ post). rewrite E, <- app_assoc. auto.
  - exists (pre ++ b1), post. rewrite E, <- !app_assoc. split; [auto|].
    rewrite app_length. lia.
Qed.

Lemma holds_rd m a bs : holds m a bs -> rd m a (N.of_nat (length bs)) = Some bs.
Proof.
  intros (pre & post & E & Ea). unfold rd. rewrite E, !app_length, Ea.
  replace (_ && _) with true by (symmetry; apply andb_true_intro; lia).
  replace (N.to_nat (r_base m + N.of_nat (length pre) - r_base m)) with (length pre) by lia.
  rewrite skipn_app_exact by reflexivity. rewrite Nat2N.id.
  now rewrite firstn_app_exact.
Qed.

Lemma holds_rd_n m a bs n : holds m a bs -> n = N.of_nat (length bs) -> rd m a n = Some bs.
Proof. intros H ->. now apply holds_rd. Qed.

Lemma holds_size m a bs : holds m a bs -> (length bs <= length (r_bytes m))%nat.
Proof. intros (pre & post & E & _). rewrite E, !app_length. lia. Qed.

Lemma rd_holds m a n bs : rd m a n = Some bs -> holds m a bs /\ N.of_nat (length bs) = n.
Proof.
  unfold rd. destruct (_ && _) eqn:C; [|discriminate]. intros [= <-].
  apply andb_prop in C. destruct C as [C1 C2].
  assert (L : length (firstn (N.to_nat n) (skipn (N.to_nat (a - r_base m)) (r_bytes m))) = N.to_nat n)
    by (rewrite firstn_length, skipn_length; lia).
  split; [|lia].
  exists (firstn (N.to_nat (a - r_base m)) (r_bytes m)),
         (skipn (N.to_nat n) (skipn (N.to_nat (a - r_base m)) (r_bytes m))).
  split.
  - now rewrite firstn_skipn, firstn_skipn.
  - rewrite firstn_length. lia.
Qed.

Lemma b_length_ge b : 8 <= b_length b.
Proof. unfold b_length. lia. Qed.

Lemma block_bytes_length b : N.of_nat (length (block_bytes b)) = b_length b.
Proof. unfold block_bytes, b_length. rewrite !app_length, !le_bytes_length. lia. Qed.

Lemma end_bytes_length r : length (end_bytes r) = 8%nat.
Proof. unfold end_bytes. now rewrite !app_length, !le_bytes_length. Qed.

Lemma header_read m a t n r rest : t < 65536 -> n < 65536 -> r < 2 ^ 32 ->
  holds m a (le_bytes 2 t ++ le_bytes 2 n ++ le_bytes 4 r ++ rest) ->
  rd m a 8 = Some (le_bytes 2 t ++ le_bytes 2 n ++ le_bytes 4 r) /\
  read_header m a = Some (Header t n r).
Proof.
  intros Ht Hn Hr H.
  replace (le_bytes 2 t ++ le_bytes 2 n ++ le_bytes 4 r ++ rest)
    with ((le_bytes 2 t ++ le_bytes 2 n ++ le_bytes 4 r) ++ rest) in H by now rewrite <- !app_assoc.
  apply holds_app in H. destruct H as [H _].
  assert (R : rd m a 8 = Some (le_bytes 2 t ++ le_bytes 2 n ++ le_bytes 4 r)).
  { apply holds_rd_n; [exact H|]. rewrite !app_length, !le_bytes_length. reflexivity. }
  split; [exact R|]. unfold read_header. rewrite R. cbn [option_map]. f_equal.
  unfold header_of, le_at.
  change (le_bytes 2 t ++ le_bytes 2 n ++ le_bytes 4 r) with
    [t mod 256; t / 256 mod 256; n mod 256; n / 256 mod 256;
     r mod 256; r / 256 mod 256; r / 256 / 256 mod 256; r / 256 / 256 / 256 mod 256].
  cbn [firstn skipn].
  change [t mod 256; t / 256 mod 256] with (le_bytes 2 t).
  change [n mod 256; n / 256 mod 256] with (le_bytes 2 n).
  change [r mod 256; r / 256 mod 256; r / 256 / 256 mod 256; r / 256 / 256 / 256 mod 256]
    with (le_bytes 4 r).
  rewrite !le_val_bytes; try reflexivity; assumption.
Qed.

Lemma block_header m a b : block_ok b -> holds m a (block_bytes b) ->
  read_header m a = Some (Header (b_type b) (b_length b) (b_reserved b)).
Proof.
  intros (Ht & Hl & Hr & _ & _) H. unfold block_bytes in H.
  assert (Ht' : b_type b < 65536) by lia.
  exact (proj2 (header_read m a (b_type b) (b_length b) (b_reserved b) (b_body b) Ht' Hl Hr H)).
Qed.

Lemma end_header m a r : r < 2 ^ 32 -> holds m a (end_bytes r) ->
  read_header m a = Some (Header 65535 8 r).
Proof.
  intros Hr H. unfold end_bytes in H.
  apply (header_read m a 65535 8 r []); try assumption; try reflexivity.
Qed.

Lemma concat_bytes_length bs :
  N.of_nat (length (concat (map block_bytes bs))) = fold_right (fun b n => b_length b + n) 0 bs.
Proof.
  induction bs as [|b bs IH]; [reflexivity|].
  cbn [map concat fold_right]. rewrite app_length, Nat2N.inj_add, block_bytes_length, IH. reflexivity.
Qed.

Lemma list_bytes_length bs r :
  N.of_nat (length (list_bytes bs r)) = fold_right (fun b n => b_length b + n) 0 bs + 8.
Proof.
  unfold list_bytes. rewrite app_length, Nat2N.inj_add, concat_bytes_length, end_bytes_length. reflexivity.
Qed.

Lemma list_bytes_cons b bs r : list_bytes (b :: bs) r = block_bytes b ++ list_bytes bs r.
Proof. unfold list_bytes. cbn [map concat]. now rewrite <- app_assoc. Qed.

Lemma blocks_fit bs r : (length bs < length (list_bytes bs r))%nat.
Proof.
  pose proof (list_bytes_length bs r) as H.
  assert (N.of_nat (length bs) <= fold_right (fun b n => b_length b + n) 0 bs).
  { clear. induction bs as [|b bs IH]; [cbn; lia|]. cbn [length fold_right].
    pose proof (b_length_ge b). lia. }
  lia.
Qed.

Lemma next_ok dbg a n : a + n < two64 -> next_addr dbg a n = HRet (a + n).
Proof. intros H. unfold next_addr, uadd. now replace (a + n <? two64) with true by lia. Qed.
