(** C79: exception handlers are called as registered. *)
From Verif Require Import Base.Prelude Exc.Model Exc.Spec.
From Coq Require Import ZifyBool ZifyNat ZifyN.
Local Open Scope N_scope.

Definition agrees (s : st) (m : table) (active : list N) : Prop :=
  (forall t, s_handler s t = m t) /\ (forall t, s_readers s t = count_occ N.eq_dec active t) /\ (forall t, s_writer s t = false).

Lemma agrees_say : forall s m a e, agrees s m a -> agrees (say s e) m a.
Proof. intros s m a e H; exact H. Qed.
Lemma agrees_set : forall s m a t h, agrees s m a -> agrees (set_handler s t h) (with_entry m t h) a.
Proof.
  intros s m a t h (A & B & C). split; [|split; assumption]. intro x. cbn. unfold upd, with_entry.
  destruct (N.eq_dec x t) as [->|E]; [rewrite N.eqb_refl; reflexivity|]. apply N.eqb_neq in E. rewrite E. apply A.
Qed.
Lemma agrees_free : forall s m a t, agrees s m a -> (free s t = true <-> ~ In t a).
Proof.
  intros s m a t (A & B & C). unfold free. rewrite C, B, andb_true_r, Nat.eqb_eq. rewrite (count_occ_not_In N.eq_dec). reflexivity.
Qed.
Lemma agrees_enter : forall s m a t, agrees s m a -> agrees (set_readers s t (S (s_readers s t))) m (t :: a).
Proof.
  intros s m a t (A & B & C). split; [exact A|split; [|exact C]]. intro x. cbn. unfold upd.
  destruct (N.eq_dec t x) as [->|E]; [rewrite N.eqb_refl, B; reflexivity|].
  replace (x =? t) with false by lia. apply B.
Qed.
Lemma agrees_leave : forall s m a t, agrees s m (t :: a) -> agrees (set_readers s t (pred (s_readers s t))) m a.
Proof.
  intros s m a t (A & B & C). split; [exact A|split; [|exact C]]. intro x. cbn. unfold upd. specialize (B x) as Bx. cbn in Bx.
  destruct (N.eq_dec t x) as [->|E]; [rewrite N.eqb_refl, Bx; reflexivity|].
  replace (x =? t) with false by lia. exact Bx.
Qed.

Lemma app_cons1 : forall {A} (l : list A) x m, (l ++ [x]) ++ m = l ++ x :: m.
Proof. intros. rewrite <- app_assoc. reflexivity. Qed.

Lemma sound : forall fuel body num, (forall h, undisturbed (body h)) ->
  forall acts s s' m active, undisturbed acts -> agrees s m active -> run fuel body num acts s = Done s' ->
  exists m' log, s_log s' = s_log s ++ log /\ agrees s' m' active /\ big body num active m acts m' log.
Proof.
  induction fuel as [|fuel IH]; intros body num UB acts s s' m active U G R; [discriminate|].
  destruct acts as [|a acts]; cbn [run] in R.
  - injection R as <-. exists m, []. rewrite app_nil_r. repeat split; try apply G. constructor.
  - assert (U' : undisturbed acts) by (intros t h k C; apply (U t h k); right; exact C).
    assert (step : forall s1 m1 e, agrees s1 m1 active -> s_log s1 = s_log s -> run fuel body num acts (say s1 e) = Done s' ->
      exists m' log, s_log s' = s_log s ++ e :: log /\ agrees s' m' active /\ big body num active m1 acts m' log).
    { intros s1 m1 e G1 L1 R1. destruct (IH body num UB acts _ s' m1 active U' (agrees_say _ _ _ e G1) R1) as (m' & log & L & G' & B).
      exists m', log. cbn in L. rewrite app_cons1, L1 in L. auto. }
    destruct a as [t h|t|t|t h k].
    + destruct h as [h|].
      * destruct (N.leb_spec num t) as [Lt|Lt].
        -- destruct (step s m _ G eq_refl R) as (m' & log & L & G' & B). exists m', (Answer (Some InvalidParameter) :: log). repeat split; try assumption; try apply G'. constructor; assumption.
        -- destruct (free s t) eqn:F; [|discriminate]. cbn [negb] in R. apply (agrees_free s m active) in F; [|exact G].
           unfold register_locked in R. destruct (s_handler s t) as [h'|] eqn:Hh; rewrite (proj1 G) in Hh.
           ++ destruct (step s m _ G eq_refl R) as (m' & log & L & G' & B). exists m', (Answer (Some AlreadyStarted) :: log). repeat split; try assumption; try apply G'. eapply big_taken; eassumption.
           ++ destruct (step _ _ _ (agrees_set _ _ _ t (Some h) G) eq_refl R) as (m' & log & L & G' & B). exists m', (Answer None :: log). repeat split; try assumption; try apply G'. eapply big_register; eassumption.
      * destruct (step s m _ G eq_refl R) as (m' & log & L & G' & B). exists m', (Answer (Some InvalidParameter) :: log). repeat split; try assumption; try apply G'. constructor; assumption.
    + destruct (N.leb_spec num t) as [Lt|Lt].
      * destruct (step s m _ G eq_refl R) as (m' & log & L & G' & B). exists m', (Answer (Some InvalidParameter) :: log). repeat split; try assumption; try apply G'. constructor; assumption.
      * destruct (free s t) eqn:F; [|discriminate]. cbn [negb] in R. apply (agrees_free s m active) in F; [|exact G].
        destruct (s_handler s t) as [h'|] eqn:Hh; rewrite (proj1 G) in Hh.
        -- destruct (step _ _ _ (agrees_set _ _ _ t None G) eq_refl R) as (m' & log & L & G' & B). exists m', (Answer None :: log). repeat split; try assumption; try apply G'. eapply big_unregister; eassumption.
        -- destruct (step s m _ G eq_refl R) as (m' & log & L & G' & B). exists m', (Answer (Some InvalidParameter) :: log). repeat split; try assumption; try apply G'. eapply big_missing; eassumption.
    + destruct (N.leb_spec num t) as [Lt|Lt]; [discriminate|].
      rewrite (proj2 (proj2 G)) in R. destruct (s_handler s t) as [h|] eqn:Hh; [|discriminate]. rewrite (proj1 G) in Hh.
      destruct (run fuel body num (body h) _) as [s1| | |] eqn:R1; try discriminate.
      destruct (IH body num UB (body h) _ s1 m (t :: active) (UB h) (agrees_say _ _ _ (Called t h) (agrees_enter _ _ _ t G)) R1) as (m1 & log1 & L1 & G1 & B1).
      destruct (IH body num UB acts _ s' m1 active U' (agrees_leave _ _ _ t G1) R) as (m' & log & L & G' & B).
      exists m', (Called t h :: log1 ++ log). cbn in L, L1. rewrite L1 in L.
      split; [rewrite L, app_cons1, <- app_assoc; reflexivity|]. split; [exact G'|]. eapply big_exception; eassumption.
    + exfalso. apply (U t h k). left. reflexivity.
Qed.

Lemma complete : forall body num active m acts m' log, big body num active m acts m' log ->
  forall s, agrees s m active -> exists n0, forall n, (n0 <= n)%nat -> exists s', run n body num acts s = Done s' /\ s_log s' = s_log s ++ log /\ agrees s' m' active.
Proof.
  intros body num active m acts m' log B. induction B; intros s G.
  - exists 1%nat. intros n Hn. destruct n as [|n]; [lia|]. exists s. cbn. rewrite app_nil_r. auto.
  - destruct (IHB (say s (Answer (Some InvalidParameter))) (agrees_say _ _ _ _ G)) as (n0 & Q). exists (S n0). intros n Hn. destruct n as [|n]; [lia|].
    destruct (Q n ltac:(lia)) as (s' & R & L & G'). exists s'. cbn [run]. split; [exact R|]. split; [|exact G']. rewrite L. cbn. apply app_cons1.
  - destruct (IHB (say s (Answer (Some InvalidParameter))) (agrees_say _ _ _ _ G)) as (n0 & Q). exists (S n0). intros n Hn. destruct n as [|n]; [lia|].
    destruct (Q n ltac:(lia)) as (s' & R & L & G'). exists s'. cbn [run]. replace (num <=? t) with true by lia. split; [exact R|]. split; [|exact G']. rewrite L. cbn. apply app_cons1.
  - destruct (IHB (say s (Answer (Some InvalidParameter))) (agrees_say _ _ _ _ G)) as (n0 & Q). exists (S n0). intros n Hn. destruct n as [|n]; [lia|].
    destruct (Q n ltac:(lia)) as (s' & R & L & G'). exists s'. cbn [run]. replace (num <=? t) with true by lia. split; [exact R|]. split; [|exact G']. rewrite L. cbn. apply app_cons1.
  - destruct (IHB (say (set_handler s t (Some h)) (Answer None)) (agrees_say _ _ _ _ (agrees_set _ _ _ t (Some h) G))) as (n0 & Q). exists (S n0). intros n Hn. destruct n as [|n]; [lia|].
    destruct (Q n ltac:(lia)) as (s' & R & L & G'). exists s'. cbn [run]. replace (num <=? t) with false by lia.
    rewrite (proj2 (agrees_free s m active t G)) by assumption. cbn [negb]. unfold register_locked. rewrite (proj1 G), H1. split; [exact R|]. split; [|exact G']. rewrite L. cbn. apply app_cons1.
  - destruct (IHB (say s (Answer (Some AlreadyStarted))) (agrees_say _ _ _ _ G)) as (n0 & Q). exists (S n0). intros n Hn. destruct n as [|n]; [lia|].
    destruct (Q n ltac:(lia)) as (s' & R & L & G'). exists s'. cbn [run]. replace (num <=? t) with false by lia.
    rewrite (proj2 (agrees_free s m active t G)) by assumption. cbn [negb]. unfold register_locked. rewrite (proj1 G), H1. split; [exact R|]. split; [|exact G']. rewrite L. cbn. apply app_cons1.
  - destruct (IHB (say (set_handler s t None) (Answer None)) (agrees_say _ _ _ _ (agrees_set _ _ _ t None G))) as (n0 & Q). exists (S n0). intros n Hn. destruct n as [|n]; [lia|].
    destruct (Q n ltac:(lia)) as (s' & R & L & G'). exists s'. cbn [run]. replace (num <=? t) with false by lia.
    rewrite (proj2 (agrees_free s m active t G)) by assumption. cbn [negb]. rewrite (proj1 G), H1. split; [exact R|]. split; [|exact G']. rewrite L. cbn. apply app_cons1.
  - destruct (IHB (say s (Answer (Some InvalidParameter))) (agrees_say _ _ _ _ G)) as (n0 & Q). exists (S n0). intros n Hn. destruct n as [|n]; [lia|].
    destruct (Q n ltac:(lia)) as (s' & R & L & G'). exists s'. cbn [run]. replace (num <=? t) with false by lia.
    rewrite (proj2 (agrees_free s m active t G)) by assumption. cbn [negb]. rewrite (proj1 G), H1. split; [exact R|]. split; [|exact G']. rewrite L. cbn. apply app_cons1.
  - destruct (IHB1 (say (set_readers s t (S (s_readers s t))) (Called t h)) (agrees_say _ _ _ _ (agrees_enter _ _ _ t G))) as (n1 & Q1).
    destruct (Q1 n1 ltac:(lia)) as (s1 & R1 & L1 & G1).
    assert (E : forall n, (n1 <= n)%nat -> exists s2, run n body num (body h) (say (set_readers s t (S (s_readers s t))) (Called t h)) = Done s2 /\ s_log s2 = s_log s1 /\ agrees s2 m1 (t :: active)).
    { intros n Hn. destruct (Q1 n Hn) as (s2 & R2 & L2 & G2). exists s2. rewrite L2, L1. auto. }
    clear E.
    (* the state the handler leaves does not depend on the fuel *)
    assert (mono : forall n k acts s s', run n body num acts s = Done s' -> run (n + k) body num acts s = Done s').
    { clear. induction n as [|n IH]; intros k acts s s' R; [discriminate|]. cbn [run Nat.add] in *. destruct acts as [|a acts]; [exact R|].
      destruct a as [t h|t|t|t h j]; repeat match goal with
        | H : context [match run n body num ?l ?s with _ => _ end] |- _ => let E := fresh in destruct (run n body num l s) eqn:E; try discriminate; rewrite (IH k _ _ _ E)
        | H : run n _ _ _ _ = Done _ |- _ => rewrite (IH k _ _ _ H); clear H
        | H : context [if ?b then _ else _] |- _ => destruct b; try discriminate
        | H : context [match s_handler ?s ?t with _ => _ end] |- _ => destruct (s_handler s t); try discriminate
        | H : context [match ?h with Some _ => _ | None => _ end] |- _ => is_var h; destruct h; try discriminate
        end; try reflexivity; auto. }
    destruct (IHB2 _ (agrees_leave _ _ _ t G1)) as (n2 & Q2). exists (S (n1 + n2)). intros n Hn. destruct n as [|n]; [lia|].
    destruct (Q2 n ltac:(lia)) as (s' & R & L & G'). exists s'. cbn [run]. replace (num <=? t) with false by lia. rewrite (proj2 (proj2 G)), (proj1 G), H0.
    pose proof (mono n1 (n - n1)%nat _ _ _ R1) as R1'. replace (n1 + (n - n1))%nat with n in R1' by lia. rewrite R1'.
    split; [exact R|]. split; [|exact G']. rewrite L. cbn. rewrite L1. cbn. rewrite app_cons1, <- app_assoc. reflexivity.
Qed.

(** Every history of requests and exceptions, with handlers that do anything the calling code may do: it runs to its end exactly when the reference does, and then
    the answers, and the handlers called, are those of the reference. *)
Theorem c79_dispatch : forall body num acts log, (forall h, undisturbed (body h)) -> undisturbed acts ->
  (exists fuel s', run fuel body num acts start = Done s' /\ s_log s' = log) <-> (exists m', big body num [] (fun _ => None) acts m' log).
Proof.
  intros body num acts log UB U. split.
  - intros (fuel & s' & R & <-). destruct (sound fuel body num UB acts start s' (fun _ => None) [] U) as (m' & l & L & _ & B); [|exact R|].
    + repeat split.
    + cbn in L. rewrite L. exists m'. exact B.
  - intros (m' & B). destruct (complete _ _ _ _ _ _ _ B start) as (n & Q); [repeat split|].
    destruct (Q n ltac:(lia)) as (s' & R & L & _). exists n, s'. auto.
Qed.

(** An exception for which no handler is registered, or of no known type, stops the system. *)
Theorem c79_unhandled : forall fuel body num t acts s, s_handler s t = None \/ num <= t -> run (S fuel) body num (Raise t :: acts) s = Panicked.
Proof. intros fuel body num t acts s H. cbn. destruct (N.leb_spec num t); [reflexivity|]. destruct (s_writer s t); [reflexivity|]. destruct H as [->|H]; [reflexivity|lia]. Qed.

(** A handler that replaces itself never returns: the lock it waits for is held on its behalf.  (The reference without locks would go on.) *)
Theorem c79_self_refuted : forall fuel num t, 3 <= num -> t < num ->
  run (5 + fuel) (fun _ => [Unreg t]) num [Reg t (Some 1); Raise t] start = Hang.
Proof.
  intros fuel num t Hn Ht. change (5 + fuel)%nat with (S (S (S (2 + fuel)))).
  cbn. replace (num <=? t) with false by lia. cbn. replace (num <=? t) with false by lia. cbn. unfold upd; cbn. rewrite N.eqb_refl. cbn.
  replace (num <=? t) with false by lia. unfold free; cbn. unfold upd; cbn. rewrite N.eqb_refl. reflexivity.
Qed.

(** An exception that comes while a handler for it is being registered stops the system, although a handler was registered all along. *)
Theorem c79_interrupted_refuted : forall fuel num t h, t < num ->
  run (4 + fuel) (fun _ => []) num [Reg t (Some 1); RegHit t (Some h) t] start = Panicked.
Proof.
  intros fuel num t h Ht. cbn. replace (num <=? t) with false by lia. cbn. replace (num <=? t) with false by lia. cbn. unfold upd; cbn. rewrite N.eqb_refl. reflexivity.
Qed.

(** The CPU architectural protocol, for types as signed numbers: types that do not exist, negative ones too, are refused; for the others a handler is registered,
    and no handler means removal. *)
Theorem c79_protocol : forall fuel body num t h s, num <= 256 ->
  ((- 2 ^ 63 <= t < 0 \/ Z.of_N num <= t < 2 ^ 63)%Z -> run (2 + fuel) body num [register_interrupt_handler t h] s = Done (say s (Answer (Some InvalidParameter)))) /\ ((0 <= t < Z.of_N num)%Z -> register_interrupt_handler t h = match h with Some _ => Reg (Z.to_N t) h | None => Unreg (Z.to_N t) end).
Proof.
  intros fuel body num t h s Hn. split; intro Ht.
  - assert (E : num <= Z.to_N (t mod 2 ^ 64)).
    { destruct Ht as [Ht|Ht].
      + replace (t mod 2 ^ 64)%Z with (t + 2 ^ 64)%Z by (apply (Z.mod_unique _ _ (-1)); lia). lia.
      + rewrite Z.mod_small by lia. lia. }
    unfold register_interrupt_handler. apply N.leb_le in E. destruct h; cbn -[Z.modulo Z.pow]; rewrite E; reflexivity.
  - unfold register_interrupt_handler. rewrite Z.mod_small by lia. destruct h; reflexivity.
Qed.

(** Handler 1 (for type 3) registers handler 2 for type 14 and causes it. *)
Example c79_case :
  let body := fun h => if h =? 1 then [Reg 14 (Some 2); Raise 14] else [] in
  let acts := [Reg 3 (Some 1); Reg 3 (Some 5); Reg 256 (Some 1); Raise 3; Unreg 3; Unreg 3] in
  (forall h, undisturbed (body h)) /\ undisturbed acts /\
  exists s, run 20 body 256 acts start = Done s /\
    s_log s = [Answer None; Answer (Some AlreadyStarted); Answer (Some InvalidParameter); Called 3 1; Answer None; Called 14 2; Answer None; Answer (Some InvalidParameter)].
Proof.
  cbv zeta. split; [|split].
  - intros h t o k H. destruct (h =? 1); cbn in H; intuition discriminate.
  - intros t o k H. cbn in H. intuition discriminate.
  - eexists. split; [vm_compute; reflexivity|reflexivity].
Qed.

Print Assumptions c79_dispatch.
Print Assumptions c79_unhandled.
Print Assumptions c79_self_refuted.
Print Assumptions c79_interrupted_refuted.
Print Assumptions c79_protocol.
