(** The debugger's access to memory and its breakpoints: what a person who debugs relies on. *)
From Verif Require Import Base.Prelude Mm.Model Mm.Spec Mm.Props Debugger.Model Debugger.Spec Debugger.Proofs.
From Coq Require Import Lia ZifyBool ZifyNat ZifyN.
Local Open Scope N_scope.
Ltac Zify.zify_post_hook ::= Z.div_mod_to_equations.

(** ** Reading *)

(** C73: a read gives the bytes of memory, at least one, all of them on readable pages, and stops early only in front of a byte that is not readable. *)
Theorem c73_read : forall dbg h e address n l, 0 < n -> address + n <= two64 ->
  read_memory dbg h e address n false = Ok l ->
  l = readm (e_mem e) address (length l) /\ 0 < N.of_nat (length l) <= n
  /\ (forall x, address <= x -> x < address + N.of_nat (length l) -> readable e x)
  /\ (N.of_nat (length l) = n \/ ~ readable e (address + N.of_nat (length l))).
Proof.
  intros dbg h e a n l N0 LE H. unfold read_memory, check_range_access in H. pose proof (check_range_spec dbg e a n N0 LE) as C.
  destruct (check_paging_range dbg e a n) as [k|x|]; [|discriminate | contradiction]. cbn [bind] in H.
  destruct (poke h e a); [|discriminate]. cbn [bind] in H. destruct (k =? 0) eqn:K0; [discriminate|]. injection H as <-.
  rewrite readm_length, N2Nat.id. destruct C as (K & R & D). repeat split; try assumption; lia.
Qed.
(** … and it does not fail if the page table lets the program read there and the eight bytes from the address can be loaded. *)
Theorem c73_read_succeeds : forall dbg h e address n, 0 < n -> address + n <= two64 -> address + 8 <= two64 ->
  ((exists l, read_memory dbg h e address n false = Ok l) <-> forall i, i < 8 -> sound h e (address + i))
  /\ (forall l, (forall i, i < 8 -> sound h e (address + i)) -> (forall x, address <= x -> x < address + n -> readable e x) ->
        read_memory dbg h e address n false = Ok l -> N.of_nat (length l) = n).
Proof.
  intros dbg h e a n N0 LE L8. pose proof (check_range_spec dbg e a n N0 LE) as C. split.
  - unfold read_memory, check_range_access. split.
    + intros [l H]. destruct (check_paging_range dbg e a n) as [k|x|]; [|discriminate | discriminate]. cbn [bind] in H.
      destruct (poke h e a) eqn:P; [|discriminate]. apply (poke_spec h e a L8). exact P.
    + intros SO. pose proof (proj2 (poke_spec h e a L8) SO) as P. destruct (check_paging_range dbg e a n) as [k|x|]; [| |contradiction].
      * cbn [bind]. rewrite P. cbn [bind]. destruct C as (K & _). destruct (k =? 0) eqn:K0; [lia|]. eexists. reflexivity.
      * exfalso. apply C. destruct (SO 0) as [R _]; [lia|]. rewrite N.add_0_r in R. exact R.
  - intros l SO RD H. destruct (c73_read dbg h e a n l N0 LE H) as (_ & K & _ & D). destruct D as [D|D]; [exact D|].
    destruct (N.eq_dec (N.of_nat (length l)) n) as [X|X]; [exact X|]. exfalso. apply D, RD; lia.
Qed.
(** Not so: that a readable byte can be read.  The test load takes eight bytes, so the last seven bytes in front of an unmapped page are out of reach. *)
Theorem c73_read_last_refuted : exists h e address,
  (forall x, hw_bogus h x = false) /\ readable e address /\ forall dbg, read_memory dbg h e address 1 false = Err tt.
Proof.
  exists (Hw (fun _ => false) (fun _ => false) (fun _ => false)), (Env (fun x => x mod 256) (fun p => if p =? 4096 then Some 0 else None)), 8190.
  split; [reflexivity|]. split; [exists 0; split; reflexivity|]. intros []; vm_compute; reflexivity.
Qed.
(** A read of no bytes subtracts one from zero: a panic in a checked build. *)
Theorem c73_read_empty_refuted : forall h e address, read_memory true h e address 0 false = Panic.
Proof. intros. reflexivity. Qed.

(** ** Writing *)

(** C73: a write within one page puts the bytes there, changes nothing else and leaves the page's protection as it was. *)
Theorem c73_write_partial : forall dbg h e address buffer, buffer <> [] ->
  address mod 4096 + N.of_nat (length buffer) <= 4096 -> address + N.of_nat (length buffer) < two64 -> address + 8 <= two64 ->
  (forall i, i < 8 -> sound h e (address + i)) ->
  (forall at_, e_attr e (address - address mod 4096) = Some at_ -> N.testbit at_ 17 = true ->
     hw_large h (address - address mod 4096) = false /\ hw_refuses h (address - address mod 4096) = false) ->
  exists e', write_memory dbg h e address buffer = (Ok tt, e')
    /\ holds (e_mem e') address buffer /\ only_within (e_mem e) (e_mem e') address (N.of_nat (length buffer)) /\ same_table e e'.
Proof.
  intros dbg h e a buffer NE PG LT L8 SO WP.
  destruct (write_one_page dbg h e a buffer NE PG LT) as (e' & R & T & M).
  - destruct (SO 0) as [R _]; [lia|]. rewrite N.add_0_r in R. exact R.
  - apply poke_spec; assumption.
  - exact WP.
  - exists e'. split; [exact R|]. rewrite M. split; [apply writem_holds|]. split; [apply writem_within | exact T].
Qed.
(** A write that reaches a byte that is not readable changes nothing. *)
Theorem c73_write_refused : forall dbg h e address buffer x, buffer <> [] -> address + N.of_nat (length buffer) < two64 ->
  address <= x -> x < address + N.of_nat (length buffer) -> ~ readable e x ->
  write_memory dbg h e address buffer = (Err tt, e).
Proof.
  intros dbg h e a buffer x NE LT X1 X2 NR. unfold write_memory, uadd, check_range_access.
  assert (L0 : 0 < N.of_nat (length buffer)) by (destruct buffer; [congruence | cbn; lia]).
  destruct (a + N.of_nat (length buffer) <? two64) eqn:E1; [|lia].
  pose proof (check_range_spec dbg e a (N.of_nat (length buffer)) L0 ltac:(lia)) as C.
  destruct (check_paging_range dbg e a (N.of_nat (length buffer))) as [k|[]|]; [| reflexivity | contradiction].
  cbn [bind]. destruct (poke h e a); [|reflexivity]. destruct (k =? N.of_nat (length buffer)) eqn:K; [|reflexivity].
  exfalso. apply NR. apply C; [exact X1 | lia].
Qed.
(** Not so: a longer write.  Whatever is written, and whether or not it is reported as done, nothing beyond 4096 bytes from the address changes. *)
Theorem c73_write_beyond_refuted : forall dbg h e address buffer r e',
  write_memory dbg h e address buffer = (r, e') -> only_within (e_mem e) (e_mem e') address 4096.
Proof.
  intros dbg h e a buffer r e' H. unfold write_memory in H. destruct (uadd dbg a (N.of_nat (length buffer))) as [n|x|];
    [| injection H as _ <-; intros y _; reflexivity | injection H as _ <-; intros y _; reflexivity].
  destruct (check_range_access dbg h e a (N.of_nat (length buffer))) as [k|x|];
    [| injection H as _ <-; intros y _; reflexivity | injection H as _ <-; intros y _; reflexivity].
  destruct (k =? N.of_nat (length buffer)); cbn [negb] in H; [|injection H as _ <-; intros y _; reflexivity].
  apply write_pages_within in H. exact H.
Qed.
Definition plain : hw := Hw (fun _ => false) (fun _ => false) (fun _ => false).
Definition flat : env := Env (fun _ => 0) (fun _ => Some 0).
(** … and the part for the second page is written over the first: ten bytes at the end of a page, reported as written. *)
Theorem c73_write_pages_refuted : forall dbg,
  let out := write_memory dbg plain flat 8186 [1; 2; 3; 4; 5; 6; 7; 8; 9; 10] in
  fst out = Ok tt /\ readm (e_mem (snd out)) 8184 14 = [0; 0; 7; 8; 9; 10; 5; 6; 0; 0; 0; 0; 0; 0].
Proof. intros []; vm_compute; split; reflexivity. Qed.
(** A write to a read-only page inside a larger mapping ends in a panic. *)
Theorem c73_write_large_refuted : forall dbg, 
  fst (write_memory dbg (Hw (fun _ => false) (fun _ => true) (fun _ => false)) (Env (fun _ => 0) (fun _ => Some (2 ^ 17))) 8192 [204]) = Panic.
Proof. intros []; vm_compute; reflexivity. Qed.
(** The last byte of the address space: a panic, or a write that is reported and did not happen. *)
Theorem c73_write_top_refuted :
  fst (write_memory true plain flat (two64 - 8) [1; 2; 3; 4; 5; 6; 7; 8]) = Panic
  /\ fst (write_memory false plain flat (two64 - 8) [1; 2; 3; 4; 5; 6; 7; 8]) = Ok tt
  /\ readm (e_mem (snd (write_memory false plain flat (two64 - 8) [1; 2; 3; 4; 5; 6; 7; 8]))) (two64 - 8) 8 = [0; 0; 0; 0; 0; 0; 0; 0].
Proof. vm_compute. repeat split. Qed.

(** ** Breakpoints *)

Lemma run_bp_inv : forall dbg u h e0 bi ops l st, (0 < length bi < 8)%nat -> bp_inv h e0 bi l st -> bp_ok h e0 bi l ops ->
  bp_inv h e0 bi (fold_left live_bp1 ops l) (snd (run_bp dbg u h bi st ops))
  /\ fst (run_bp dbg u h bi st ops) = bp_answers l ops.
Proof.
  intros dbg u h e0 bi. induction ops as [|o ops IH]; intros l st LB I OK; [split; [exact I | reflexivity]|].
  cbn [run_bp fold_left bp_answers]. destruct OK as [OK1 OK2]. destruct o as [a|a].
  - destruct OK1 as [GP AP]. destruct (add_ok dbg u h e0 bi l st a LB I GP AP) as (st' & R & I'). rewrite R.
    destruct (IH _ st' LB I' OK2) as [J1 J2]. destruct (run_bp dbg u h bi st' ops) as [rs st'']. cbn [fst snd] in *. rewrite J2. split; [exact J1 | reflexivity].
  - destruct (remove_ok dbg h e0 bi l st a LB I) as (st' & R & I'). rewrite R.
    destruct (IH _ st' LB I' OK2) as [J1 J2]. destruct (run_bp dbg u h bi st' ops) as [rs st'']. cbn [fst snd] in *. rewrite J2. split; [exact J1 | reflexivity].
Qed.
Lemma bp_inv_start : forall h e bi, bp_inv h e bi [] (e, no_breakpoints).
Proof.
  intros h e bi. split; cbn [fst snd].
  - intros p. reflexivity.
  - reflexivity.
  - change (addrs no_breakpoints) with (@nil N). constructor.
  - intros a o H. apply repeat_spec in H. discriminate.
  - constructor.
  - intros a b [].
  - split; [intros a [] | intros x _; reflexivity].
Qed.

(** C74: after any history of breakpoints set and removed, memory is the program's, with the breakpoint instruction at the addresses that are set,
    the page table is as it was, and every request was answered with whether it took effect. *)
Theorem c74_breakpoints_partial : forall dbg u h e bi ops, (0 < length bi < 8)%nat -> bp_ok h e bi [] ops ->
  let out := run_bp dbg u h bi (e, no_breakpoints) ops in
  shows_breakpoints (e_mem e) (e_mem (fst (snd out))) bi (live_bp ops) /\ same_table e (fst (snd out)) /\ fst out = bp_answers [] ops.
Proof.
  intros dbg u h e bi ops LB OK. cbv zeta. destruct (run_bp_inv dbg u h e bi ops [] (e, no_breakpoints) LB (bp_inv_start h e bi) OK) as [J1 J2].
  split; [exact (bp_mem _ _ _ _ _ J1)|]. split; [exact (bp_table _ _ _ _ _ J1) | exact J2].
Qed.
(** … so once all are removed the program's memory is what it was. *)
Theorem c74_restored_partial : forall dbg u h e bi ops, (0 < length bi < 8)%nat -> bp_ok h e bi [] ops -> live_bp ops = [] ->
  forall x, e_mem (fst (snd (run_bp dbg u h bi (e, no_breakpoints) ops))) x = e_mem e x.
Proof.
  intros dbg u h e bi ops LB OK E x. destruct (c74_breakpoints_partial dbg u h e bi ops LB OK) as [[_ S2] _]. apply S2. rewrite E. intros a [].
Qed.
(** Not so: for an address that is set twice.  The second slot keeps the instruction of the first as if it were the program's: removing both leaves it. *)
Theorem c74_twice_refuted : forall dbg u,
  let out := run_bp dbg u plain [204] (flat, no_breakpoints) [SetBp 4096; SetBp 4096; ClearBp 4096; ClearBp 4096] in
  fst out = [Ok true; Ok true; Ok true; Ok true] /\ e_mem flat 4096 = 0 /\ e_mem (fst (snd out)) 4096 = 204.
Proof. intros [] []; vm_compute; repeat split. Qed.
(** … and the first removal, the slots being searched in order, takes the instruction away although the other is still set. *)
Theorem c74_twice_lost_refuted : forall dbg u,
  let out := run_bp dbg u plain [204] (flat, no_breakpoints) [SetBp 4096; SetBp 4096; ClearBp 4096] in
  fst out = [Ok true; Ok true; Ok true] /\ e_mem (fst (snd out)) 4096 = 0.
Proof. intros [] []; vm_compute; repeat split. Qed.

(** ** Cases *)

(** A page readable, the next protected: a read over the edge is cut. *)
Definition two_pages : env := Env (fun x => x mod 256) (fun p => if p =? 4096 then Some (2 ^ 17) else if p =? 8192 then Some (2 ^ 13) else None).
Example read_case : read_memory true plain two_pages 8180 100 false = Ok [244; 245; 246; 247; 248; 249; 250; 251; 252; 253; 254; 255].
Proof. vm_compute. reflexivity. Qed.
Example read_sound_case : forall i, i < 8 -> sound plain two_pages (8180 + i).
Proof.
  intros i I. split; [|reflexivity]. exists (2 ^ 17). split; [|reflexivity]. cbn [two_pages e_attr].
  replace (8180 + i - (8180 + i) mod 4096) with 4096 by lia. reflexivity.
Qed.
(** A write to the read-only page. *)
Example write_case : let out := write_memory true plain two_pages 5000 [1; 2; 3] in
  fst out = Ok tt /\ readm (e_mem (snd out)) 4999 5 = [135; 1; 2; 3; 139] /\ e_attr (snd out) 4096 = Some (2 ^ 17).
Proof. vm_compute. repeat split. Qed.
Lemma flat_place : forall a, a + 8 <= two64 -> good_place plain flat [204] a.
Proof.
  intros a L. split; [cbn [length]; lia|]. split; [exact L|]. split; [intros i _; split; [exists 0; split; reflexivity | reflexivity]|].
  intros at_ Q RO. injection Q as <-. discriminate.
Qed.
Example bp_case : bp_ok plain flat [204] [] [SetBp 4096; SetBp 5000; ClearBp 4096; SetBp 4096; ClearBp 77; ClearBp 5000]
  /\ live_bp [SetBp 4096; SetBp 5000; ClearBp 4096; SetBp 4096; ClearBp 77; ClearBp 5000] = [4096]
  /\ bp_answers [] [SetBp 4096; SetBp 5000; ClearBp 4096; SetBp 4096; ClearBp 77; ClearBp 5000] = [Ok true; Ok true; Ok true; Ok true; Ok false; Ok true].
Proof.
  split; [|split; reflexivity]. cbn [bp_ok live_bp1 length Nat.ltb Nat.leb app filter N.eqb negb Pos.eqb]. 
  assert (P1 := flat_place 4096 ltac:(vm_compute; discriminate)). assert (P2 := flat_place 5000 ltac:(vm_compute; discriminate)).
  split; [split; [exact P1 | intros b []]|]. split; [split; [exact P2 | intros b [<-|[]]; left; vm_compute; discriminate]|]. split; [exact I|].
  split; [split; [exact P1 | intros b [<-|[]]; right; vm_compute; discriminate]|]. repeat split.
Qed.

Print Assumptions c73_read.
Print Assumptions c73_read_succeeds.
Print Assumptions c73_read_last_refuted.
Print Assumptions c73_read_empty_refuted.
Print Assumptions c73_write_partial.
Print Assumptions c73_write_refused.
Print Assumptions c73_write_beyond_refuted.
Print Assumptions c73_write_pages_refuted.
Print Assumptions c73_write_large_refuted.
Print Assumptions c73_write_top_refuted.
Print Assumptions c74_breakpoints_partial.
Print Assumptions c74_restored_partial.
Print Assumptions c74_twice_refuted.
Print Assumptions c74_twice_lost_refuted.
