(** The serial connection, for every schedule of the device. *)
From Verif Require Import Base.Prelude Serial.Spec Serial.Model.
From Coq Require Import Lia ZifyBool ZifyNat ZifyN.
Local Open Scope N_scope.

(** ** The flags *)

Lemma fr_busy : forall depth d, (N.land (UARTFR depth d) FR_BUSY =? 0) = true <-> tx d = [].
Proof. intros depth d. unfold UARTFR, FR_BUSY. destruct (tx d); destruct (rx d); destruct (Nat.leb depth _); cbn; split; try discriminate; reflexivity. Qed.
Lemma fr_rxfe : forall depth d, (N.land (UARTFR depth d) FR_RXFE =? 0) = true <-> rx d <> [].
Proof. intros depth d. unfold UARTFR, FR_RXFE. destruct (tx d); destruct (rx d); destruct (Nat.leb depth _); cbn; split; try discriminate; try reflexivity; intros H; contradiction. Qed.
Lemma fr_txff : forall depth d, (N.land (UARTFR depth d) FR_TXFF =? 0) = true <-> (length (tx d) < depth)%nat.
Proof.
  intros depth d. unfold UARTFR, FR_TXFF. destruct (Nat.leb depth (length (tx d))) eqn:E; destruct (tx d); destruct (rx d); cbn -[Nat.leb length] in *; split; intros H; try discriminate; try reflexivity; lia.
Qed.

(** ** What is kept *)

(** The device keeps what came in, and what it was given to send, in order. *)
Lemma step_sent : forall depth d t, line (step depth d t) ++ tx (step depth d t) = line d ++ tx d /\ dropped (step depth d t) = dropped d.
Proof.
  intros depth d t. destruct t as [| |b]; cbn [step]; [split; reflexivity | |].
  - destruct (tx d) as [|b q] eqn:E; [rewrite E; split; reflexivity|]. cbn [line tx dropped]. rewrite <- app_assoc. split; reflexivity.
  - destruct (Nat.ltb _ _); split; reflexivity.
Qed.
Lemma step_got : forall depth d t pre, arrived d = pre ++ rx d -> arrived (step depth d t) = pre ++ rx (step depth d t).
Proof.
  intros depth d t pre H. destruct t as [| |b]; cbn [step]; [exact H | |].
  - destruct (tx d); exact H.
  - destruct (Nat.ltb _ _); [|exact H]. cbn [arrived rx]. rewrite H, app_assoc. reflexivity.
Qed.
Lemma step_len : forall depth d t, (length (tx (step depth d t)) <= length (tx d))%nat.
Proof. intros depth d t. destruct t as [| |b]; cbn [step]; [lia | |]. - destruct (tx d) eqn:E; [rewrite E; cbn; lia | cbn; lia]. - destruct (Nat.ltb _ _); cbn; lia. Qed.
Lemma step_rx : forall depth d t, rx d <> [] -> rx (step depth d t) <> [].
Proof. intros depth d t H. destruct t as [| |b]; cbn [step]; [exact H | |]. - destruct (tx d); exact H. - destruct (Nat.ltb _ _); [|exact H]. cbn [rx]. intros E. apply app_eq_nil in E. destruct E as [_ E]. discriminate. Qed.
Lemma wait_kept : forall depth mask s d d' s', wait_clear depth mask d s = Some (d', s') ->
  line d' ++ tx d' = line d ++ tx d /\ dropped d' = dropped d /\ (forall pre, arrived d = pre ++ rx d -> arrived d' = pre ++ rx d') /\ (N.land (UARTFR depth d') mask =? 0) = true.
Proof.
  intros depth mask s. induction s as [|t s IH]; intros d d' s' H; [discriminate|]. cbn [wait_clear] in H. cbv zeta in H. destruct (step_sent depth d t) as [S1 S2]. destruct (_ =? 0) eqn:E in H.
  - assert (step depth d t = d') by congruence. subst d'. repeat split; [exact S1 | exact S2 | intros; apply step_got; assumption | exact E].
  - destruct (IH _ _ _ H) as (A & B & C & D). rewrite A, B. repeat split; [exact S1 | exact S2 | intros; apply C, step_got; assumption | exact D].
Qed.
Lemma write_kept : forall depth b d s d' s', write_byte depth b d s = Some (d', s') ->
  line d' = line d ++ tx d ++ [b] /\ tx d' = [] /\ dropped d' = dropped d /\ (forall pre, arrived d = pre ++ rx d -> arrived d' = pre ++ rx d').
Proof.
  intros depth b d s d' s' H. unfold write_byte in H. destruct (wait_clear depth FR_TXFF d s) as [[d1 [|t s1]]|] eqn:W; try discriminate. destruct (wait_kept _ _ _ _ _ _ W) as (A & B & C & D).
  apply fr_txff in D. pose proof (step_sent depth d1 t) as [S1 S2]. pose proof (step_len depth d1 t) as SL. destruct (wait_kept _ _ _ _ _ _ H) as (A' & B' & C' & D'). apply fr_busy in D'. unfold dr_write in *.
  destruct (Nat.ltb (length (tx (step depth d1 t))) depth) eqn:L; [|lia]. cbn [line tx dropped rx arrived] in *. rewrite D', app_nil_r in A'.
  split; [rewrite A', app_assoc, S1, A, <- app_assoc; reflexivity|]. split; [exact D'|]. split; [congruence|]. intros pre P. apply C'. apply step_got, C, P.
Qed.
Lemma read_kept : forall depth d s o d' s', read_byte depth d s = Some (o, d', s') ->
  line d' ++ tx d' = line d ++ tx d /\ dropped d' = dropped d /\ (forall pre, arrived d = pre ++ rx d -> arrived d' = pre ++ (match o with Some b => [b] | None => [] end) ++ rx d').
Proof.
  intros depth d s o d' s' H. unfold read_byte in H. destruct s as [|t s]; [discriminate|]. cbv zeta in H. pose proof (step_sent depth d t) as [S1 S2]. pose proof (step_got depth d t) as SG.
  destruct (N.land (UARTFR depth (step depth d t)) FR_RXFE =? 0) eqn:E; cbn [negb] in H.
  - apply fr_rxfe in E. destruct s as [|t' s]; [discriminate|]. pose proof (step_rx depth _ t' E) as R. pose proof (step_sent depth (step depth d t) t') as [S3 S4]. pose proof (step_got depth (step depth d t) t') as SG'.
    unfold dr_read in H. destruct (rx (step depth (step depth d t) t')) as [|b q] eqn:Q; [contradiction|]. assert (o = Some b) by congruence.
    assert (D : d' = Dev q (tx (step depth (step depth d t) t')) (line (step depth (step depth d t) t')) (arrived (step depth (step depth d t) t')) (dropped (step depth (step depth d t) t'))) by congruence.
    subst o d'. cbn [line tx dropped arrived rx]. split; [congruence|]. split; [congruence|]. intros pre P. rewrite (SG' pre (SG pre P)). reflexivity.
  - assert (o = None) by congruence. assert (d' = step depth d t) by congruence. subst. split; [exact S1|]. split; [exact S2|]. exact SG.
Qed.
Lemma uread_kept : forall depth fuel d s b d' s', uart_read depth fuel d s = Some (b, d', s') ->
  line d' ++ tx d' = line d ++ tx d /\ dropped d' = dropped d /\ (forall pre, arrived d = pre ++ rx d -> arrived d' = pre ++ [b] ++ rx d').
Proof.
  intros depth fuel. induction fuel as [|fuel IH]; intros d s b d' s' H; [discriminate|]. cbn [uart_read] in H. destruct (read_byte depth d s) as [[[[x|] d1] s1]|] eqn:R; [| |discriminate].
  - assert (x = b) by congruence. assert (d1 = d') by congruence. subst. exact (read_kept _ _ _ _ _ _ R).
  - destruct (read_kept _ _ _ _ _ _ R) as (A & B & C). destruct (IH _ _ _ _ _ H) as (A' & B' & C'). rewrite A', B'. split; [exact A|]. split; [exact B|]. intros pre P. apply C'. exact (C pre P).
Qed.
Definition opt_list (o : option N) : list N := match o with Some b => [b] | None => [] end.
Definition kept (c : conn) (got put : list N) : Prop := arrived (port c) = (got ++ opt_list (peeked c)) ++ rx (port c) /\ line (port c) ++ tx (port c) = put /\ dropped (port c) = [].
Lemma run_kept : forall depth l c got put c' got' put', run depth l c got put = Some (c', got', put') -> kept c got put -> kept c' got' put'.
Proof.
  intros depth l. induction l as [|o l IH]; intros c got put c' got' put' H K; cbn [run] in H; [assert (c = c' /\ got = got' /\ put = put') as (-> & -> & ->) by (repeat split; congruence); exact K|].
  destruct K as (K1 & K2 & K3). destruct o as [b| |].
  - unfold c_write in H. cbn [uart_write] in H. destruct (write_byte depth b (port c) (sched c)) as [[d s]|] eqn:W; [|discriminate]. destruct (write_kept _ _ _ _ _ _ W) as (A & B & C & D).
    apply (IH _ _ _ _ _ _ H). unfold kept. cbn [port peeked]. split; [apply D, K1|]. split; [rewrite B, app_nil_r, A, app_assoc, K2; reflexivity | congruence].
  - unfold c_read in H. destruct (peeked c) as [b|] eqn:P.
    + apply (IH _ _ _ _ _ _ H). unfold kept. cbn [port peeked opt_list]. rewrite app_nil_r. split; [exact K1 | split; assumption].
    + destruct (uart_read depth (length (sched c)) (port c) (sched c)) as [[[b d] s]|] eqn:R; [|discriminate]. destruct (uread_kept _ _ _ _ _ _ _ R) as (A & B & C). cbn [opt_list] in K1. rewrite app_nil_r in K1.
      apply (IH _ _ _ _ _ _ H). unfold kept. cbn [port peeked opt_list]. rewrite app_nil_r. split; [rewrite (C _ K1), app_assoc; reflexivity|]. split; congruence.
  - unfold c_peek in H. destruct (peeked c) as [b|] eqn:P.
    + apply (IH _ _ _ _ _ _ H). unfold kept. rewrite P. split; [exact K1 | split; assumption].
    + cbn [opt_list] in K1. rewrite app_nil_r in K1. destruct (read_byte depth (port c) (sched c)) as [[[[b|] d] s]|] eqn:R; [| |discriminate]; destruct (read_kept _ _ _ _ _ _ R) as (A & B & C);
        apply (IH _ _ _ _ _ _ H); unfold kept; cbn [port peeked opt_list].
      * split; [rewrite (C _ K1), app_assoc; reflexivity | split; congruence].
      * rewrite app_nil_r. split; [exact (C _ K1) | split; congruence].
Qed.
(** C90: over any history of reads, writes and peeks and any schedule of the device, what was read is what came in, in order, each byte once; at most one more
    has left the device, and that one the next read gives. *)
Theorem c90_received : forall depth l s c got put, run depth l (Conn None idle_dev s) [] [] = Some (c, got, put) ->
  arrived (port c) = got ++ (match peeked c with Some b => [b] | None => [] end) ++ rx (port c).
Proof.
  intros depth l s c got put H. destruct (run_kept _ _ _ _ _ _ _ _ H) as (K & _ & _); [repeat split|]. rewrite K, <- app_assoc. reflexivity.
Qed.
(** C90: every byte written goes out on the line, in order and once; none is written to a full queue. *)
Theorem c90_sent : forall depth l s c got put, run depth l (Conn None idle_dev s) [] [] = Some (c, got, put) -> line (port c) ++ tx (port c) = put /\ dropped (port c) = [].
Proof. intros depth l s c got put H. destruct (run_kept _ _ _ _ _ _ _ _ H) as (_ & K & D); [repeat split|]. split; assumption. Qed.
(** C90: a buffer has left the device when the write returns: what was queued before, and the buffer. *)
Theorem c90_buffer : forall depth l d s d' s', l <> [] -> uart_write depth l d s = Some (d', s') -> line d' = line d ++ tx d ++ l /\ tx d' = [] /\ dropped d' = dropped d.
Proof.
  intros depth l. induction l as [|b l IH]; intros d s d' s' N H; [contradiction|]. cbn [uart_write] in H. destruct (write_byte depth b d s) as [[d1 s1]|] eqn:W; [|discriminate].
  destruct (write_kept _ _ _ _ _ _ W) as (A & B & C & _). destruct l as [|b' l].
  - cbn [uart_write] in H. assert (d1 = d') by congruence. subst. split; [exact A | split; assumption].
  - destruct (IH d1 s1 d' s' ltac:(discriminate) H) as (A' & B' & C'). rewrite B in A'. cbn [app] in A'. split; [rewrite A', A, <- !app_assoc; reflexivity|]. split; [exact B' | congruence].
Qed.
(** C90: looking at a byte does not take it: the next look, and the next read, give the same. *)
Theorem c90_peek : forall depth c b c', c_peek depth c = Some (Some b, c') -> c_peek depth c' = Some (Some b, c') /\ exists c'', c_read depth c' = Some (b, c'') /\ port c'' = port c' /\ peeked c'' = None.
Proof.
  intros depth c b c' H. assert (P : peeked c' = Some b).
  { unfold c_peek in H. destruct (peeked c) as [x|] eqn:E; [congruence|]. destruct (read_byte depth (port c) (sched c)) as [[[[x|] d] s]|]; [|congruence|discriminate]. assert (x = b) by congruence. subst x. assert (c' = Conn (Some b) d s) by congruence. subst. reflexivity. }
  unfold c_peek, c_read. rewrite P. split; [reflexivity|]. eexists. split; [reflexivity|]. split; reflexivity.
Qed.
(** C90: no byte to look at means that none was waiting, then; looking does not wait: two accesses are enough. *)
Theorem c90_peek_empty : forall depth c t t' s, sched c = t :: t' :: s -> exists o c', c_peek depth c = Some (o, c') /\ (o = None <-> peeked c = None /\ rx (step depth (port c) t) = []).
Proof.
  intros depth c t t' s S. unfold c_peek. destruct (peeked c) as [b|]; [exists (Some b), c; split; [reflexivity|]; split; [discriminate | intros [X _]; discriminate]|].
  rewrite S. unfold read_byte. cbv zeta. destruct (N.land (UARTFR depth (step depth (port c) t)) FR_RXFE =? 0) eqn:E; cbn [negb].
  - apply fr_rxfe in E. destruct (dr_read _) as [b d]. eexists. eexists. split; [reflexivity|]. split; [discriminate | intros [_ X]; contradiction].
  - eexists. eexists. split; [reflexivity|]. split; [intros _ | reflexivity]. split; [reflexivity|]. destruct (rx (step depth (port c) t)) eqn:R; [reflexivity|]. exfalso.
    assert (X : (N.land (UARTFR depth (step depth (port c) t)) FR_RXFE =? 0) = true) by (apply fr_rxfe; rewrite R; discriminate). congruence.
Qed.
(** C90: a read ends when a byte has come in. *)
Theorem c90_read_ends : forall depth pre d b t s fuel, (0 < depth)%nat -> (length pre < fuel)%nat -> exists x d' s', uart_read depth fuel d (pre ++ Arrive b :: t :: s) = Some (x, d', s').
Proof.
  intros depth pre. induction pre as [|p pre IH]; intros d b t s fuel D F; (destruct fuel as [|fuel]; [cbn in F; lia|]); cbn [app uart_read read_byte]; cbv zeta.
  - assert (R : rx (step depth d (Arrive b)) <> []).
    { cbn [step]. destruct (Nat.ltb (length (rx d)) depth) eqn:L; [cbn [rx]; intros E; apply app_eq_nil in E; destruct E; discriminate|]. intros E. rewrite E in L. cbn [length] in L. lia. }
    apply (fr_rxfe depth) in R. rewrite R. cbn [negb]. destruct (dr_read _) as [x d']. eexists. eexists. eexists. reflexivity.
  - destruct (N.land (UARTFR depth (step depth d p)) FR_RXFE =? 0); cbn [negb].
    + destruct pre as [|q pre]; cbn [app]; destruct (dr_read _) as [x d']; eexists; eexists; eexists; reflexivity.
    + apply IH; [exact D | cbn [length] in F; lia].
Qed.
Lemma step_shift : forall depth d, length (tx (step depth d Shift)) = (length (tx d) - 1)%nat.
Proof. intros depth d. cbn [step]. destruct (tx d) eqn:E; [rewrite E; reflexivity | cbn; lia]. Qed.
Lemma wait_busy_ends : forall depth s d, (length (tx d) < shifts s)%nat -> exists d' s', wait_clear depth FR_BUSY d s = Some (d', s').
Proof.
  intros depth s. induction s as [|t s IH]; intros d H; [cbn in H; lia|]. cbn [wait_clear]. cbv zeta. destruct (_ =? 0) eqn:E; [eexists; eexists; reflexivity|]. apply IH.
  assert (N : tx (step depth d t) <> []) by (intros X; apply (fr_busy depth) in X; congruence). pose proof (step_len depth d t) as L. destruct t as [| |b]; cbn [shifts] in H; [lia | | lia].
  pose proof (step_shift depth d) as SS. destruct (tx (step depth d Shift)); [contradiction|]. cbn [length] in *. lia.
Qed.
Lemma wait_full_ends : forall depth s d, (0 < depth)%nat -> (length (tx d) <= depth)%nat -> (0 < shifts s)%nat ->
  exists d' s', wait_clear depth FR_TXFF d s = Some (d', s') /\ (length (tx d') <= length (tx d))%nat /\ (shifts s <= shifts s' + 1)%nat.
Proof.
  intros depth s. induction s as [|t s IH]; intros d D L H; [cbn in H; lia|]. cbn [wait_clear]. cbv zeta. pose proof (step_len depth d t) as SL. destruct (_ =? 0) eqn:E.
  - eexists. eexists. split; [reflexivity|]. split; [exact SL|]. destruct t; cbn [shifts]; lia.
  - assert (N : ~ (length (tx (step depth d t)) < depth)%nat) by (intros X; apply (fr_txff depth) in X; congruence). destruct t as [| |b].
    + destruct (IH (step depth d Idle) D ltac:(lia) H) as (d' & s' & W & A & B). exists d', s'. split; [exact W|]. split; [lia | cbn [shifts]; exact B].
    + pose proof (step_shift depth d). lia.
    + destruct (IH (step depth d (Arrive b)) D ltac:(lia) H) as (d' & s' & W & A & B). exists d', s'. split; [exact W|]. split; [lia | cbn [shifts]; exact B].
Qed.
(** C90: a write ends if the device goes on sending: three bytes more than it has queued are enough, whatever else happens in between. *)
Theorem c90_write_ends : forall depth b d s, (0 < depth)%nat -> (length (tx d) <= depth)%nat -> (length (tx d) + 4 <= shifts s)%nat -> exists d' s', write_byte depth b d s = Some (d', s').
Proof.
  intros depth b d s D L H. unfold write_byte. destruct (wait_full_ends depth s d D L ltac:(lia)) as (d1 & s1 & W & A & B). rewrite W. destruct s1 as [|t s1]; [cbn [shifts] in B; lia|]. apply wait_busy_ends.
  pose proof (step_len depth d1 t) as SL. assert (S1 : (shifts (t :: s1) <= shifts s1 + 1)%nat) by (destruct t; cbn [shifts]; lia). unfold dr_write. destruct (Nat.ltb _ _); cbn [tx]; [rewrite app_length; cbn [length]|]; lia.
Qed.
(** Not so: that a write ends whatever the device does.  With a device that does not send it waits for good. *)
Theorem c90_write_waits_refuted : forall depth b d s, (0 < depth)%nat -> (forall t, In t s -> t <> Shift) -> write_byte depth b d s = None.
Proof.
  intros depth b d s D H. assert (T : forall s d, (forall t, In t s -> t <> Shift) -> tx d <> [] -> wait_clear depth FR_BUSY d s = None).
  { clear. intros s. induction s as [|t s IH]; intros d H N; [reflexivity|]. cbn [wait_clear]. cbv zeta. assert (X : tx (step depth d t) = tx d).
    { destruct t as [| |b]; [reflexivity | exfalso; apply (H Shift); [left; reflexivity | reflexivity] | cbn [step]; destruct (Nat.ltb _ _); reflexivity]. }
    destruct (_ =? 0) eqn:E; [apply fr_busy in E; congruence|]. apply IH; [intros t' I; apply H; right; exact I | congruence]. }
  unfold write_byte. assert (W : forall s d d' s', wait_clear depth FR_TXFF d s = Some (d', s') -> (forall t, In t s -> t <> Shift) -> forall t, In t s' -> t <> Shift).
  { clear. intros s. induction s as [|t s IH]; intros d d' s' W H; [discriminate|]. cbn [wait_clear] in W. cbv zeta in W. destruct (_ =? 0) in W.
    - assert (s = s') by congruence. subst. intros t' I. apply H. right. exact I.
    - apply (IH _ _ _ W). intros t' I. apply H. right. exact I. }
  destruct (wait_clear depth FR_TXFF d s) as [[d1 [|t s1]]|] eqn:E; [reflexivity | | reflexivity]. pose proof (W _ _ _ _ E H) as S1. apply T; [intros t' I; apply S1; right; exact I|].
  destruct (wait_kept _ _ _ _ _ _ E) as (_ & _ & _ & F). apply fr_txff in F. pose proof (step_len depth d1 t) as SL. unfold dr_write. destruct (Nat.ltb (length (tx (step depth d1 t))) depth) eqn:L; [|lia].
  cbn [tx]. intros X. apply app_eq_nil in X. destruct X. discriminate.
Qed.

(** ** Suspended logging *)

(** C90: behind the scope of a suspender the level is as it was. *)
Theorem c90_level : forall l level, snd (act_run (Suspended l) level) = level.
Proof. intros l level. cbn [act_run]. match goal with |- context [let (o, _) := ?g l 0 in _] => destruct (g l 0) end. reflexivity. Qed.
(** C90: within it no message is emitted, of any level and however deep in further scopes, unless the level is changed there. *)
Theorem c90_silent : forall l level, Forall quiet l -> fst (act_run (Suspended l) level) = [].
Proof.
  assert (Q : forall a, quiet a -> act_run a 0 = ([], 0)).
  { fix IH 2. intros a H. destruct H as [m | l F].
    - cbn [act_run]. destruct ((1 <=? m) && (m <=? 0)) eqn:E; [lia | reflexivity].
    - cbn [act_run]. match goal with |- (let (o, _) := ?g l 0 in _) = _ => assert (X : g l 0 = ([], 0)) end.
      { revert l F. fix IHl 2. intros l F. destruct F as [|a l A F]; [reflexivity|]. rewrite (IH a A). rewrite (IHl l F). reflexivity. }
      rewrite X. reflexivity. }
  intros l level F. cbn [act_run]. match goal with |- fst (let (o, _) := ?g l 0 in _) = _ => assert (X : g l 0 = ([], 0)) end.
  { induction F as [|a l A F IH]; [reflexivity|]. rewrite (Q a A), IH. reflexivity. }
  rewrite X. reflexivity.
Qed.
(** Not so: that a level set while the debugger is in is kept. *)
Theorem c90_set_refuted : exists l level, act_run (Suspended [SetLevel l]) level = ([], level) /\ l <> level.
Proof. exists 4, 2. split; [reflexivity | discriminate]. Qed.

(** ** Cases *)

(** A byte comes in while another is written; it is looked at, then read. *)
Example demo_serial : exists c, run 16 [Write 0x24; Peek; Read; Peek] (Conn None idle_dev [Idle; Arrive 0x2B; Idle; Shift; Idle; Idle; Idle]) [] [] = Some (c, [0x2B], [0x24]) /\ line (port c) = [0x24] /\ arrived (port c) = [0x2B].
Proof. eexists. vm_compute. repeat split. Qed.
Example demo_log : act_run (Suspended [Message 1; Suspended [Message 2]; Message 3]) 3 = ([], 3) /\ act_run (Message 2) 3 = ([2], 3).
Proof. split; reflexivity. Qed.

Print Assumptions c90_received.
Print Assumptions c90_sent.
Print Assumptions c90_buffer.
Print Assumptions c90_peek.
Print Assumptions c90_peek_empty.
Print Assumptions c90_read_ends.
Print Assumptions c90_write_ends.
Print Assumptions c90_write_waits_refuted.
Print Assumptions c90_level.
Print Assumptions c90_silent.
Print Assumptions c90_set_refuted.
