(** Entry and exit of exceptions on x86-64: what a handler and the program see. *)
From Verif Require Import Base.Prelude Exc.EntryModel Exc.EntrySpec.
From Coq Require Import Lia ZifyBool ZifyNat ZifyN.
Local Open Scope N_scope.

(** The test for an error code, as the entry code makes it. *)
Definition seen_with_code (v : N) : bool := negb (N.land (N.shiftl 1 (v mod 64) mod two64) VECTORS_WITH_ERROR_CODES =? 0).

Lemma seen_bits : forall v, seen_with_code v = true <-> with_error_code (v mod 64).
Proof.
  intros v. unfold seen_with_code, with_error_code. assert (L : v mod 64 < 64) by (apply N.mod_lt; discriminate). revert L. generalize (v mod 64) as k. intros k L.
  assert (A : forall n, (n < 64)%nat -> Bool.eqb (negb (N.land (N.shiftl 1 (N.of_nat n) mod two64) VECTORS_WITH_ERROR_CODES =? 0)) (existsb (N.eqb (N.of_nat n)) [8; 10; 11; 12; 13; 14; 17; 21; 29; 30]) = true).
  { assert (B : forallb (fun n => Bool.eqb (negb (N.land (N.shiftl 1 (N.of_nat n) mod two64) VECTORS_WITH_ERROR_CODES =? 0)) (existsb (N.eqb (N.of_nat n)) [8; 10; 11; 12; 13; 14; 17; 21; 29; 30])) (seq 0 64) = true) by (vm_compute; reflexivity).
    rewrite forallb_forall in B. intros n Hn. apply B. apply in_seq. lia. }
  specialize (A (N.to_nat k) ltac:(lia)). rewrite N2Nat.id in A. apply Bool.eqb_prop in A. rewrite A, existsb_exists. split.
  - intros [x [X1 X2]]. apply N.eqb_eq in X2. subst. exact X1.
  - intros X. exists k. split; [exact X | apply N.eqb_refl].
Qed.

(** Instructions up to the call. *)
Section Exec.
Context (h : handler) (junk : nat -> N).
Fixpoint exec (code : list instr) (skip : nat) (m : mach) : res stop (mach * nat) :=
  match code with
  | [] => Ok (m, skip)
  | i :: code =>
      match skip with
      | S k => exec code k m
      | O => match i with Iretq | Call => Err Fault | _ => match step h junk i m with Ok (m, k, _) => exec code k m | Err x => Err x | Panic => Panic end end
      end
  end.
Lemma exec_run : forall a b skip m m', exec a skip m = Ok (m', O) -> run h junk (a ++ b) skip m = run h junk b 0 m'.
Proof.
  induction a as [|i a IH]; intros b skip m m' E; cbn [exec app] in *.
  - injection E as -> ->. reflexivity.
  - destruct skip as [|k]; [|cbn [run]; apply IH; exact E].
    assert (C : forall m1 k1 c1, step h junk i m = Ok (m1, k1, c1) -> i <> Call -> c1 = []).
    { intros m1 k1 c1 S1 NC. destruct i; cbn [step] in S1; unfold bind in S1; try congruence;
        repeat (match type of S1 with context[match ?x with _ => _ end] => destruct x; try congruence end). }
    assert (X : i <> Iretq /\ i <> Call) by (split; intros ->; discriminate).
    destruct X as [X1 X2].
    assert (R : run h junk (i :: a ++ b) 0 m = match step h junk i m with Ok (m, k, calls) => match run h junk (a ++ b) k m with Ok (p, calls') => Ok (p, calls ++ calls') | r => r end | Err x => Err x | Panic => Panic end)
      by (destruct i; try reflexivity; congruence).
    rewrite R. assert (E' : match step h junk i m with Ok (m, k, _) => exec a k m | Err x => Err x | Panic => Panic end = Ok (m', O)) by (destruct i; try exact E; congruence).
    destruct (step h junk i m) as [[[m1 k1] c1]|x|] eqn:S1; try discriminate. rewrite (IH _ _ _ _ E'). rewrite (C m1 k1 c1 eq_refl X2). cbn [app]. destruct (run h junk b 0 m') as [[q c]|x|]; reflexivity.
Qed.
End Exec.

Ltac list64 l H := do 64 (destruct l as [|? l]; [discriminate H|]); destruct l as [|? l]; [clear H | discriminate H].
Ltac machine := cbv -[N.land N.lor N.shiftl N.modulo N.eqb N.div N.mul N.add two16 two64 VECTORS_WITH_ERROR_CODES].

(** The call of the handler. *)
Lemma run_call : forall h junk code m n, m_reg m RDX = Ptr n ->
  let i := (length (m_stack m) - n)%nat in
  let ctx := map word_of (firstn CONTEXT (skipn i (m_stack m))) in
  let v := word_of (m_reg m RCX) in
  run h junk (Call :: code) 0 m =
    match run h junk code 0 (Mach (fun r => if volatile r then Word (snd (h v ctx) r) else m_reg m r) (m_sys m) (m_idtr m) (m_gdtr m) (m_fx m)
      (firstn i (m_stack m) ++ map Word (fst (h v ctx)) ++ skipn (i + CONTEXT) (m_stack m)) (m_zf m)) with
    | Ok (p, calls) => Ok (p, (v, ctx) :: calls) | r => r end.
Proof. intros h junk code m n E. cbv zeta. cbn [run step]. rewrite E. destruct (h _ _) as [c vol]. reflexivity. Qed.

Ltac stage E H := match goal with |- context[run ?h ?junk (?a ++ ?b) 0 ?m] =>
  eassert (E : exec h junk a 0 m = Ok (_, 0%nat)); [machine; try rewrite H; reflexivity | rewrite (exec_run h junk a b _ _ _ E); clear E] end.

Ltac the_call code2 := match goal with |- context[run ?h ?junk (Call :: code2) 0 ?m] =>
  pose proof (run_call h junk code2 m _ eq_refl) as RC; cbv zeta in RC; set (m2 := m) in * end.

Ltac the_rest code :=
  match goal with CS : ?cs < two16, SS : ?ss < two16, m2 := Mach _ ?sy2 _ _ _ _ _ |- exists g i, forall q c g' i' vol, prog_ok q -> ?h ?v (context (fx_enabled ?p) _ g i) = _ -> _ =>
  match goal with RC : _, junk : nat -> N |- _ =>
  exists (junk 33%nat / two16), (junk 31%nat / two16); intros q c g' i' vol (QC & QS & QF) HH;
  assert (CTX : map word_of (firstn CONTEXT (skipn (length (m_stack m2) - 115) (m_stack m2))) = context (fx_enabled p) code (junk 33%nat / two16) (junk 31%nat / two16))
    by (machine; rewrite (N.mod_small cs two16 CS), (N.mod_small ss two16 SS); reflexivity);
  rewrite RC, CTX; clear RC CTX; change (word_of (m_reg m2 RCX)) with v;
  unfold m2 in *; clear m2; cbn [m_fx] in *; rewrite HH; cbn [fst snd]; clear HH;
  destruct q as [qr qip qcs qfl qsp qss qsy [qil qih] [qgl qgh] qfx]; cbn [p_cs p_ss p_fx] in *; list64 qfx QF;
  eexists; split; [machine; reflexivity|]; split; [|intros s K; destruct s; try reflexivity; destruct K];
  split; [intros r; destruct r; reflexivity|]; cbn [p_rip p_cs p_flags p_rsp p_ss p_sys p_fx]; rewrite (N.mod_small qcs), (N.mod_small qss) by assumption;
  repeat split; try reflexivity; intros s K; destruct s; try reflexivity; exfalso; apply K; exact I
  end end.

Lemma entry_ok : forall h junk v p code, prog_ok p -> (seen_with_code v = true <-> code <> None) ->
  exists g i, let ctx := context (fx_enabled p) (match code with Some e => e | None => 0 end) g i in
    forall q c g' i' vol, prog_ok q -> h v ctx = (context q c g' i', vol) ->
    exists q', run h junk (entry v) 0 (deliver p code) = Ok (q', [(v, ctx)])
      /\ same_prog kept q' q /\ forall s, kept s -> p_sys q' s = p_sys p s.
Proof.
  intros h junk v [pr ip cs fl sp ss sy [il ih] [gl gh] fx] code (CS & SS & FX) CODE. cbn [p_cs p_ss p_fx] in *. list64 fx FX.
  unfold entry, call_handler. rewrite app_assoc. change ([LoadM RCX 0; MovRsp RDX; Alloc 5; Call; Free 5] ++ restore) with ([LoadM RCX 0; MovRsp RDX; Alloc 5] ++ Call :: (Free 5 :: restore)).
  rewrite (app_assoc save). set (code2 := Free 5 :: restore).
  destruct code as [e|].
  - assert (S0 : (N.land (N.shiftl 1 (v mod 64) mod two64) VECTORS_WITH_ERROR_CODES =? 0) = false)
      by (unfold seen_with_code in CODE; destruct (_ =? 0); [exfalso; assert (X : Some e <> None) by discriminate; apply CODE in X; discriminate | reflexivity]).
    stage EA S0. stage EB S0. the_call code2.
    the_rest e.
  - assert (S0 : (N.land (N.shiftl 1 (v mod 64) mod two64) VECTORS_WITH_ERROR_CODES =? 0) = true)
      by (unfold seen_with_code in CODE; destruct (_ =? 0); [reflexivity | exfalso; destruct CODE as [C _]; apply C; reflexivity]).
    stage EA S0. stage EB S0. the_call code2. the_rest 0.
Qed.

Lemma seen_small : forall v code, v < 256 -> code_ok v code -> v < 64 \/ ~ with_error_code (v mod 64) -> (seen_with_code v = true <-> code <> None).
Proof.
  intros v code L C S. unfold code_ok in C. rewrite seen_bits, C. split; intros H.
  - destruct S as [S|S]; [rewrite N.mod_small in H by lia; exact H | contradiction].
  - assert (V : v < 64) by (unfold with_error_code in H; cbn [In] in H; lia). rewrite N.mod_small by lia. exact H.
Qed.

(** When the floating-point state is saved, CR4 has OSFXSR set, without which the XMM registers would be left out. *)
Theorem c78_fxsave : forall h junk v p code a r b, prog_ok p -> (seen_with_code v = true <-> code <> None) -> entry v = a ++ Fxsave r :: b ->
  exists m, exec h junk a 0 (deliver p code) = Ok (m, 0%nat) /\ N.testbit (m_sys m CR4) 9 = true.
Proof.
  intros h junk v p code a r b P CODE E.
  assert (A : a = stub v ++ normalize ++ firstn 69 save).
  { unfold entry, stub, normalize, save in E |- *. cbn [app firstn]. cbn [app] in E.
    do 81 (destruct a as [|? a]; cbn [app] in E; [discriminate | injection E as <- E; f_equal]).
    destruct a as [|? a]; [reflexivity|]. exfalso. injection E as _ E. unfold call_handler, restore in E. cbn [app] in E.
    repeat (destruct a as [|? a]; cbn [app] in E; [discriminate | injection E as _ E || discriminate E]). }
  subst a. rename E into E0. clear E0 b r.
  destruct p as [pr ip cs fl sp ss sy [il ih] [gl gh] fx]. clear P.
  destruct code as [e|].
  - assert (S0 : (N.land (N.shiftl 1 (v mod 64) mod two64) VECTORS_WITH_ERROR_CODES =? 0) = false)
      by (unfold seen_with_code in CODE; destruct (_ =? 0); [exfalso; assert (X : Some e <> None) by discriminate; apply CODE in X; discriminate | reflexivity]).
    eexists. split; [machine; rewrite S0; reflexivity|]. cbn -[N.lor N.testbit]. rewrite N.lor_spec, Bool.orb_true_r. reflexivity.
  - assert (S0 : (N.land (N.shiftl 1 (v mod 64) mod two64) VECTORS_WITH_ERROR_CODES =? 0) = true)
      by (unfold seen_with_code in CODE; destruct (_ =? 0); [reflexivity | exfalso; destruct CODE as [C _]; apply C; reflexivity]).
    eexists. split; [machine; rewrite S0; reflexivity|]. cbn -[N.lor N.testbit]. rewrite N.lor_spec, Bool.orb_true_r. reflexivity.
Qed.

(** C78: an exception calls the handler with its vector and a context that shows the program's registers, word by word as the UEFI specification has them, and the
    error code.  If the handler leaves the context of a program state, the program goes on in that state; segment selectors other than CS and SS, debug registers and table
    registers stay as they are.  This is so for every vector with a gate of its own, but for the ones from 64 on that are, modulo 64, vectors with error code. *)
Theorem c78_exception_partial : forall h junk v p code, gate v = Some (Some v) -> v < 64 \/ ~ with_error_code (v mod 64) -> code_ok v code -> prog_ok p ->
  exists g i, let ctx := context (fx_enabled p) (match code with Some e => e | None => 0 end) g i in
    forall q c g' i' vol, prog_ok q -> h v ctx = (context q c g' i', vol) ->
    exists q', run h junk (entry v) 0 (deliver p code) = Ok (q', [(v, ctx)])
      /\ same_prog kept q' q /\ forall s, kept s -> p_sys q' s = p_sys p s.
Proof.
  intros h junk v p code G S C P. apply entry_ok; [exact P|]. apply seen_small; [|exact C | exact S].
  unfold gate in G. destruct (existsb _ _) eqn:E1.
  - apply existsb_exists in E1. destruct E1 as [x [X1 X2]]. apply N.eqb_eq in X2. subst x. cbn [In] in X1. lia.
  - destruct (v =? 8) eqn:E2; [discriminate|]. destruct (existsb (N.eqb v) [10; 11; 12; 13; 14; 17; 29; 30]) eqn:E3.
    + apply existsb_exists in E3. destruct E3 as [x [X1 X2]]. apply N.eqb_eq in X2. subst x. cbn [In] in X1. lia.
    + destruct (v =? 21) eqn:E4; [lia|]. destruct ((32 <=? v) && (v <=? 255)) eqn:E5; [lia | discriminate].
Qed.
(** C78: a handler that changes nothing leaves the program as it was, but for two bits of CR4. *)
Theorem c78_resume_partial : forall junk vol v p code, gate v = Some (Some v) -> v < 64 \/ ~ with_error_code (v mod 64) -> code_ok v code -> prog_ok p ->
  exists q' calls, run (fun _ ctx => (ctx, vol)) junk (entry v) 0 (deliver p code) = Ok (q', calls)
    /\ same_prog (eq CR4) q' p /\ p_sys q' CR4 = N.lor (p_sys p CR4) 0x208.
Proof.
  intros junk vol v p code G S C P. destruct (c78_exception_partial (fun _ ctx => (ctx, vol)) junk v p code G S C P) as (g & i & H). cbv zeta in H.
  destruct (H (fx_enabled p) _ g i vol P eq_refl) as (q' & R & (Q1 & Q2 & Q3 & Q4 & Q5 & Q6 & Q7 & Q8) & K). exists q'. eexists. split; [exact R|].
  split; [|exact (Q7 CR4 (fun x => x))]. unfold same_prog. repeat split; try assumption. intros s NE.
  destruct s; try (apply K; exact I); try (exfalso; apply NE; reflexivity); apply Q7; intros [].
Qed.
(** Not so: that CR4 is as it was; OSFXSR and DE stay set. *)
Theorem c78_cr4_refuted : forall junk vol v p code, gate v = Some (Some v) -> v < 64 \/ ~ with_error_code (v mod 64) -> code_ok v code -> prog_ok p -> p_sys p CR4 = 0 ->
  exists q' calls, run (fun _ ctx => (ctx, vol)) junk (entry v) 0 (deliver p code) = Ok (q', calls) /\ p_sys q' CR4 = 0x208.
Proof.
  intros junk vol v p code G S C P Z. destruct (c78_resume_partial junk vol v p code G S C P) as (q' & calls & R & _ & K). exists q', calls. split; [exact R|]. rewrite K, Z. reflexivity.
Qed.
(** Not so: for interrupts whose vector is, modulo 64, one with an error code (72, 74 to 78, 81, 85, 93, 94 and so on): the shift counts modulo 64, no word is put in
    place of the error code, and the floating-point state is saved to an address that is not aligned.  The processor faults before any handler is called. *)
Theorem c78_alias_refuted : forall h junk v p, 64 <= v -> v < 256 -> with_error_code (v mod 64) -> prog_ok p ->
  gate v = Some (Some v) /\ code_ok v None /\ run h junk (entry v) 0 (deliver p None) = Err Fault.
Proof.
  intros h junk v p V1 V2 W (CS & SS & FX). split; [|split].
  - unfold gate. replace (existsb (N.eqb v) [0; 1; 2; 3; 4; 5; 6; 7; 9; 16; 19; 20; 28]) with false by (symmetry; cbn [existsb]; lia). replace (v =? 8) with false by lia.
    replace (existsb (N.eqb v) [10; 11; 12; 13; 14; 17; 29; 30]) with false by (symmetry; cbn [existsb]; lia). replace (v =? 21) with false by lia.
    replace ((32 <=? v) && (v <=? 255)) with true by lia. reflexivity.
  - unfold code_ok, with_error_code. split; [congruence|]. cbn [In]. lia.
  - apply seen_bits in W. assert (S0 : (N.land (N.shiftl 1 (v mod 64) mod two64) VECTORS_WITH_ERROR_CODES =? 0) = false) by (unfold seen_with_code in W; destruct (_ =? 0); [discriminate | reflexivity]).
    destruct p as [pr ip cs fl sp ss sy [il ih] [gl gh] fx]. unfold entry. rewrite app_assoc. stage EA S0. machine. reflexivity.
Qed.
(** C78: every vector has a gate of its own, but for the double fault, reserved vectors, the machine check and the control protection exception. *)
Theorem c78_gates : forall v, v < 256 -> gate v = Some (Some v) \/ In v [8; 15; 18; 21; 22; 23; 24; 25; 26; 27; 31].
Proof.
  intros v L. assert (A : forallb (fun n => match gate (N.of_nat n) with Some (Some w) => w =? N.of_nat n | _ => false end || existsb (N.eqb (N.of_nat n)) [8; 15; 18; 21; 22; 23; 24; 25; 26; 27; 31]) (seq 0 256) = true) by (vm_compute; reflexivity).
  rewrite forallb_forall in A. specialize (A (N.to_nat v)). rewrite N2Nat.id in A. assert (I : In (N.to_nat v) (seq 0 256)) by (apply in_seq; lia). specialize (A I).
  apply Bool.orb_true_iff in A. destruct A as [A|A].
  - left. destruct (gate v) as [[w|]|]; try discriminate. apply N.eqb_eq in A. subst. reflexivity.
  - right. apply existsb_exists in A. destruct A as [x [X1 X2]]. apply N.eqb_eq in X2. subst. exact X1.
Qed.
(** Not so: a machine check has no gate, and the gate of the control protection exception (21, with error code) leads to the stub of vector 19, which has none:
    again a fault before any handler. *)
Theorem c78_gates_refuted : gate 18 = None /\ gate 21 = Some (Some 19)
  /\ forall h junk p e, prog_ok p -> code_ok 21 (Some e) /\ run h junk (entry 19) 0 (deliver p (Some e)) = Err Fault.
Proof.
  split; [reflexivity|]. split; [reflexivity|]. intros h junk p e _. split; [unfold code_ok, with_error_code; split; [cbn [In]; auto 12 | discriminate]|].
  assert (S0 : (N.land (N.shiftl 1 (19 mod 64) mod two64) VECTORS_WITH_ERROR_CODES =? 0) = true) by reflexivity.
  destruct p as [pr ip cs fl sp ss sy [il ih] [gl gh] fx]. unfold entry. rewrite app_assoc. stage EA S0. machine. reflexivity.
Qed.

(** ** Cases *)

Definition demo : prog := Prog (fun r => match r with RAX => 1 | R15 => 15 | RSI => 6 | _ => 0 end) 0x1000 0x38 0x246 0x8008 0x30 (fun s => match s with CR4 => 0x668 | CR2 => 7 | _ => 0 end) (Tab 1 2) (Tab 3 4) (repeat 5 64).
Example c78_case_ok : prog_ok demo /\ gate 14 = Some (Some 14) /\ code_ok 14 (Some 2) /\ gate 0x68 = Some (Some 0x68) /\ code_ok 0x68 None /\ ~ with_error_code (0x68 mod 64).
Proof.
  repeat split; try reflexivity; try discriminate; try (intros _; cbn; auto 12; fail); try congruence.
  - intros H. unfold with_error_code in H. cbn [In] in H. lia.
  - intros H. unfold with_error_code in H. change (0x68 mod 64) with 40 in H. cbn [In] in H. lia.
Qed.
(** A handler that moves the program on and sets RAX. *)
Definition mover : handler := fun _ ctx => (put 98 42 (put 84 0x2000 ctx), fun _ => 99).
Example c78_case_run : exists q ctx, run mover (fun _ => 0) (entry 14) 0 (deliver demo (Some 2)) = Ok (q, [(14, ctx)])
  /\ p_rip q = 0x2000 /\ p_reg q RAX = 42 /\ p_reg q R15 = 15 /\ p_reg q RSI = 6 /\ p_rsp q = 0x8008 /\ nth 0 ctx 0 = 2 /\ nth 73 ctx 0 = 7.
Proof. eexists. eexists. split; [vm_compute; reflexivity|]. repeat split. Qed.

Print Assumptions c78_fxsave.
Print Assumptions c78_exception_partial.
Print Assumptions c78_resume_partial.
Print Assumptions c78_cr4_refuted.
Print Assumptions c78_alias_refuted.
Print Assumptions c78_gates.
Print Assumptions c78_gates_refuted.
