(** C66: communication with management mode. *)
From Verif Require Import Base.Prelude Base.Bytes Mm.Model Mm.Spec.
Local Open Scope N_scope.

(** ** Memory *)
Lemma readm_length : forall m a n, length (readm m a n) = n.
Proof. intros. unfold readm. now rewrite map_length, seq_length. Qed.

Lemma nth_readm : forall m a n i, (i < n)%nat -> nth i (readm m a n) 0 = m (a + N.of_nat i).
Proof.
  intros m a n i H. unfold readm. rewrite (nth_indep _ 0 (m (a + N.of_nat 0))) by (now rewrite map_length, seq_length).
  rewrite (map_nth (fun i => m (a + N.of_nat i)) (seq 0 n) 0%nat i). now rewrite seq_nth.
Qed.

Lemma readm_holds : forall m a l n, length l = n -> readm m a n = l <-> holds m a l.
Proof.
  intros m a l n <-. unfold holds. split.
  - intros H i Hi. rewrite <- (nth_readm m a (length l) i Hi). now rewrite H.
  - intros H. apply (nth_ext _ _ 0 0); [apply readm_length|]. intros i Hi. rewrite readm_length in Hi. rewrite nth_readm by exact Hi. apply H, Hi.
Qed.

Lemma bytes_eqb_spec : forall a b, bytes_eqb a b = true <-> a = b.
Proof.
  induction a as [|x a IH]; destruct b as [|y b]; cbn [bytes_eqb]; try (split; [discriminate|discriminate]); [tauto|].
  rewrite andb_true_iff, N.eqb_eq, IH. split; [intros (-> & ->); reflexivity|intros H; injection H; auto].
Qed.

Lemma writem_holds : forall m a l, holds (writem m a l) a l.
Proof.
  intros m a l i Hi. unfold writem. destruct (N.leb_spec a (a + N.of_nat i)); [|lia]. destruct (N.ltb_spec (a + N.of_nat i) (a + N.of_nat (length l))); [|lia].
  cbn [andb]. f_equal. lia.
Qed.

Lemma writem_within : forall m a l, only_within m (writem m a l) a (N.of_nat (length l)).
Proof.
  intros m a l x H. unfold writem. destruct (N.leb_spec a x), (N.ltb_spec x (a + N.of_nat (length l))); try reflexivity. lia.
Qed.

Lemma holds_app : forall m a u v, holds m a (u ++ v) <-> holds m a u /\ holds m (a + N.of_nat (length u)) v.
Proof.
  intros m a u v. unfold holds. rewrite app_length. split.
  - intros H. split; intros i Hi.
    + rewrite H by lia. now rewrite app_nth1.
    + replace (a + N.of_nat (length u) + N.of_nat i) with (a + N.of_nat (length u + i)) by lia. rewrite H by lia. rewrite app_nth2 by lia. f_equal. lia.
  - intros (H1 & H2) i Hi. destruct (Nat.lt_ge_cases i (length u)) as [L|G]; [rewrite app_nth1 by exact L; apply H1, L|].
    rewrite app_nth2 by exact G. replace (a + N.of_nat i) with (a + N.of_nat (length u) + N.of_nat (i - length u)) by lia. apply H2. lia.
Qed.

Lemma holds_frame : forall m m' a l b n, only_within m m' b n -> a + N.of_nat (length l) <= b \/ b + n <= a -> holds m a l -> holds m' a l.
Proof. intros m m' a l b n F D H i Hi. rewrite F by lia. apply H, Hi. Qed.

(** ** Checking a buffer *)
Definition addressee (b : cbuf) : list N := match cb_rcpt b with Some g => g | None => repeat 0 16 end.

Lemma addressee_length : forall b, buf_ok b -> length (addressee b) = 16%nat.
Proof. intros b (_ & _ & _ & H). unfold addressee. destruct (cb_rcpt b); [apply H|reflexivity]. Qed.

Lemma mlen_word : forall b, buf_ok b -> cb_mlen b < 256 ^ N.of_nat 8.
Proof. intros b (H1 & _ & H2 & _). change (256 ^ N.of_nat 8) with (2 ^ 64). change (2 ^ 63) with 9223372036854775808 in H1. change (2 ^ 64) with 18446744073709551616. lia. Qed.

Lemma verify_true : forall m b, buf_ok b -> 24 <= cb_len b -> holds m (cb_addr b) (addressee b) ->
  holds m (cb_addr b + 16) (le_bytes 8 (cb_mlen b)) -> verify m b = Ok tt.
Proof.
  intros m b W L H1 H2. unfold verify, HEADER. destruct (N.ltb_spec (cb_len b) 24); [lia|]. fold (addressee b).
  apply (readm_holds m (cb_addr b) (addressee b) 16 (addressee_length b W)) in H1. rewrite H1.
  rewrite (proj2 (bytes_eqb_spec _ _) eq_refl). cbn [negb].
  apply (readm_holds m (cb_addr b + 16) _ 8 (le_bytes_length _ _)) in H2. rewrite H2, le_val_bytes by (apply mlen_word, W). now rewrite N.eqb_refl.
Qed.

Lemma verify_spec : forall m b, mem_ok m -> buf_ok b ->
  (24 <= cb_len b /\ holds m (cb_addr b) (addressee b) /\ holds m (cb_addr b + 16) (le_bytes 8 (cb_mlen b))) /\ verify m b = Ok tt \/
  ~ (24 <= cb_len b /\ holds m (cb_addr b) (addressee b) /\ holds m (cb_addr b + 16) (le_bytes 8 (cb_mlen b))) /\ exists e, verify m b = Err e.
Proof.
  intros m b MO W. destruct (N.le_gt_cases 24 (cb_len b)) as [L|G].
  2:{ right. split; [lia|]. exists TooSmallForHeader. unfold verify, HEADER. destruct (N.ltb_spec (cb_len b) 24); [reflexivity|lia]. }
  destruct (bytes_eqb (readm m (cb_addr b) 16) (addressee b)) eqn:E1.
  - apply bytes_eqb_spec in E1. pose proof E1 as H1. apply readm_holds in H1; [|apply addressee_length, W].
    destruct (N.eqb_spec (le_val (readm m (cb_addr b + 16) 8)) (cb_mlen b)) as [E2|E2].
    + assert (H2 : holds m (cb_addr b + 16) (le_bytes 8 (cb_mlen b))).
      { apply (readm_holds _ _ _ 8); [apply le_bytes_length|]. rewrite <- E2. symmetry.
        rewrite <- (readm_length m (cb_addr b + 16) 8) at 1. apply le_bytes_val. apply Forall_forall. intros x Hx. unfold readm in Hx. apply in_map_iff in Hx. destruct Hx as (i & <- & _). apply MO. }
      left. split; [auto|]. apply verify_true; auto.
    + right. split.
      * intros (_ & _ & H2). apply (readm_holds m (cb_addr b + 16) _ 8 (le_bytes_length _ _)) in H2. rewrite H2, le_val_bytes in E2 by (apply mlen_word, W). congruence.
      * exists TooSmallForMessage. unfold verify, HEADER. destruct (N.ltb_spec (cb_len b) 24); [lia|]. fold (addressee b). rewrite E1, (proj2 (bytes_eqb_spec _ _) eq_refl). cbn [negb].
        destruct (N.eqb_spec (le_val (readm m (cb_addr b + 16) 8)) (cb_mlen b)); [contradiction|reflexivity].
  - right. split.
    + intros (_ & H1 & _). apply (readm_holds m (cb_addr b) (addressee b) 16 (addressee_length b W)) in H1. rewrite H1, (proj2 (bytes_eqb_spec _ _) eq_refl) in E1. discriminate.
    + exists InvalidRecipient. unfold verify, HEADER. destruct (N.ltb_spec (cb_len b) 24); [lia|]. fold (addressee b). now rewrite E1.
Qed.

(** ** Making a buffer *)

(** A buffer is made exactly of a region that has room for the header, is not at address zero, starts on a page and does
    not reach past the last address; it is cleared and nothing else is written. *)
Theorem c66_region : forall m addr size id, addr < 2 ^ 64 -> size < 2 ^ 63 ->
  (24 <= size /\ addr <> 0 /\ addr mod 4096 = 0 /\ addr + size < 2 ^ 64 ->
   exists b m', from_firmware_region m addr size id = Ok (b, m') /\
     cb_addr b = addr /\ cb_len b = size /\ cb_id b = id /\ buf_ok b /\
     (forall x, addr <= x < addr + size -> m' x = 0) /\ only_within m m' addr size /\
     forall dbg, get_message dbg m' b = Ok []) /\
  (~ (24 <= size /\ addr <> 0 /\ addr mod 4096 = 0 /\ addr + size < 2 ^ 64) -> exists e, from_firmware_region m addr size id = Err e).
Proof.
  intros m a n id Ha Hn. change (2 ^ 64) with two64 in *. unfold from_firmware_region, from_raw_parts.
  assert (MASK : N.land a 0xFFF = a mod 4096) by (change 0xFFF with (N.ones 12); now rewrite N.land_ones).
  rewrite MASK. unfold HEADER. split.
  - intros (H1 & H2 & H3 & H4). destruct (N.leb_spec two64 (a + n)); [lia|]. destruct (N.ltb_spec n 24); [lia|]. destruct (N.eqb_spec a 0); [contradiction|].
    rewrite H3. cbn [negb N.eqb]. unfold u64_max. destruct (N.ltb_spec (two64 - 1 - n) a); [lia|].
    exists (CBuf a n id None 0), (writem m a (repeat 0 (N.to_nat n))). split; [reflexivity|]. cbn [cb_addr cb_len cb_id].
    assert (LEN : N.of_nat (length (repeat 0 (N.to_nat n))) = n) by (rewrite repeat_length; lia).
    assert (WF : buf_ok (CBuf a n id None 0)) by (unfold buf_ok; cbn; auto 8).
    assert (Z : forall x, a <= x < a + n -> writem m a (repeat 0 (N.to_nat n)) x = 0).
    { intros x Hx. unfold writem. destruct (N.leb_spec a x); [|lia]. destruct (N.ltb_spec x (a + N.of_nat (length (repeat 0 (N.to_nat n))))); [|lia]. cbn [andb].
      apply nth_repeat. }
    repeat (split; [first [reflexivity|exact WF|exact Z]|]). split.
    + pose proof (writem_within m a (repeat 0 (N.to_nat n))) as X. rewrite LEN in X. exact X.
    + intros dbg. unfold get_message. rewrite verify_true; [reflexivity|exact WF|exact H1| |]; cbn [cb_addr cb_mlen addressee cb_rcpt].
      * intros i Hi. cbn [repeat length] in Hi. change (repeat 0 16) with (repeat 0 16) in *. rewrite nth_repeat. apply Z. cbn in Hi. lia.
      * change (le_bytes 8 0) with (repeat 0 8). intros i Hi. rewrite nth_repeat. cbn in Hi. apply Z. lia.
  - intros H. destruct (N.leb_spec two64 (a + n)); [eauto|]. destruct (N.ltb_spec n 24); [eauto|]. destruct (N.eqb_spec a 0); [eauto|].
    destruct (N.eqb_spec (a mod 4096) 0); cbn [negb]; [|eauto]. exfalso. apply H. auto.
Qed.

(** The same for a buffer made from a pointer and a length. *)
Theorem c66_raw_parts : forall m addr size id, addr < 2 ^ 64 -> size < 2 ^ 63 ->
  (24 <= size /\ addr <> 0 /\ addr mod 4096 = 0 /\ addr + size < 2 ^ 64 -> from_raw_parts m addr size id = from_firmware_region m addr size id) /\
  (~ (24 <= size /\ addr <> 0 /\ addr mod 4096 = 0 /\ addr + size < 2 ^ 64) -> exists e, from_raw_parts m addr size id = Err e).
Proof.
  intros m a n id Ha Hn. change (2 ^ 64) with two64 in *. unfold from_firmware_region, from_raw_parts.
  assert (MASK : N.land a 0xFFF = a mod 4096) by (change 0xFFF with (N.ones 12); now rewrite N.land_ones). rewrite MASK. unfold HEADER. split.
  - intros (H1 & H2 & H3 & H4). destruct (N.leb_spec two64 (a + n)); [lia | reflexivity].
  - intros H. destruct (N.ltb_spec n 24); [eauto|]. destruct (N.eqb_spec a 0); [eauto|]. destruct (N.eqb_spec (a mod 4096) 0); cbn [negb]; [|eauto].
    unfold u64_max. destruct (N.ltb_spec (two64 - 1 - n) a); [eauto|]. exfalso. apply H. unfold two64 in *. repeat split; auto. lia.
Qed.

(** ** Setting and getting a message *)

Lemma info_ok : forall m b g, buf_ok b -> is_guid g -> 24 <= cb_len b ->
  let b' := CBuf (cb_addr b) (cb_len b) (cb_id b) (Some g) (cb_mlen b) in
  set_message_info m b g = (Ok tt, writem m (cb_addr b) (header_bytes g (cb_mlen b)), b') /\ buf_ok b'.
Proof.
  intros m b g W HG L b'. assert (W' : buf_ok b') by (destruct W as (W1 & W2 & W3 & _); unfold b', buf_ok; cbn; auto).
  split; [|exact W']. unfold set_message_info, validate_capacity, HEADER. destruct (N.ltb_spec (cb_len b) 24); [lia|].
  destruct (N.ltb_spec (cb_len b - 24) 0); [lia|]. fold b'. f_equal. f_equal.
  pose proof (writem_holds m (cb_addr b) (header_bytes g (cb_mlen b))) as HW. unfold header_bytes in HW at 2. apply holds_app in HW. destruct HW as (H1 & H2).
  apply verify_true; auto. cbn [b' cb_addr cb_mlen]. destruct HG as (HL & _). rewrite HL in H2. exact H2.
Qed.

Lemma header_length : forall g n, length g = 16%nat -> N.of_nat (length (header_bytes g n)) = 24.
Proof. intros g n H. unfold header_bytes. rewrite app_length, H, le_bytes_length. reflexivity. Qed.

Lemma set_ok : forall m b g msg, buf_ok b -> cb_rcpt b = Some g -> 24 + N.of_nat (length msg) <= cb_len b ->
  exists m', set_message m b msg = (Ok tt, m', CBuf (cb_addr b) (cb_len b) (cb_id b) (Some g) (N.of_nat (length msg))) /\
    buf_ok (CBuf (cb_addr b) (cb_len b) (cb_id b) (Some g) (N.of_nat (length msg))) /\
    holds_message m' (cb_addr b) g msg /\ only_within m m' (cb_addr b) (24 + N.of_nat (length msg)).
Proof.
  intros m b g msg W R L. pose proof W as (W1 & W2 & _ & W4). rewrite R in W4. pose proof W4 as (GL & _).
  set (n := N.of_nat (length msg)) in *. set (b' := CBuf (cb_addr b) (cb_len b) (cb_id b) (Some g) n).
  assert (W' : buf_ok b') by (unfold b', buf_ok; cbn; auto).
  unfold set_message, validate_capacity, HEADER. fold n. destruct (N.ltb_spec (cb_len b) 24); [lia|]. destruct (N.ltb_spec (cb_len b - 24) n); [lia|].
  rewrite R. fold b'. set (m1 := writem m (cb_addr b) (header_bytes g n)). set (m2 := writem m1 (cb_addr b + 24) msg).
  pose proof (writem_holds m (cb_addr b) (header_bytes g n)) as H1. fold m1 in H1. unfold header_bytes in H1. apply holds_app in H1. destruct H1 as (H1 & H2). rewrite GL in H2.
  change (N.of_nat 16) with 16 in H2. pose proof (writem_within m1 (cb_addr b + 24) msg) as F2. fold m2 n in F2.
  pose proof (writem_within m (cb_addr b) (header_bytes g n)) as F1. fold m1 in F1. rewrite (header_length g n GL) in F1.
  assert (G1 : holds m2 (cb_addr b) g) by (eapply holds_frame; [exact F2|left; rewrite GL; lia|exact H1]).
  assert (G2 : holds m2 (cb_addr b + 16) (le_bytes 8 n)) by (eapply holds_frame; [exact F2|left; rewrite le_bytes_length; lia|exact H2]).
  exists m2. split; [|split; [exact W'|split]].
  - f_equal. f_equal. apply verify_true; auto; unfold b'; cbn; lia.
  - split; [exact G1|]. split; [exact G2|]. apply writem_holds.
  - intros x Hx. rewrite F2 by lia. apply F1. lia.
Qed.

(** Setting a message succeeds exactly if a recipient was set and it fits; then the buffer holds it, nothing outside was
    written, and it is the message read back.  Otherwise nothing is written. *)
Theorem c66_set_message : forall dbg m b msg, buf_ok b ->
  (forall g, cb_rcpt b = Some g -> 24 + N.of_nat (length msg) <= cb_len b ->
    exists m' b', set_message m b msg = (Ok tt, m', b') /\ same_place b b' /\ buf_ok b' /\ cb_rcpt b' = Some g /\
      holds_message m' (cb_addr b) g msg /\ only_within m m' (cb_addr b) (24 + N.of_nat (length msg)) /\ get_message dbg m' b' = Ok msg) /\
  (cb_rcpt b = None \/ cb_len b < 24 + N.of_nat (length msg) -> exists e, set_message m b msg = (Err e, m, b)).
Proof.
  intros dbg m b msg W. split.
  - intros g R L. destruct (set_ok m b g msg W R L) as (m' & E & W' & HM & F). exists m'. eexists. split; [exact E|]. split; [unfold same_place; auto|].
    split; [exact W'|]. split; [reflexivity|]. split; [exact HM|]. split; [exact F|]. destruct HM as (H1 & H2 & H3).
    unfold get_message. rewrite verify_true; [|exact W'|cbn; lia|exact H1|exact H2]. cbn [bind cb_mlen cb_len cb_addr]. destruct W as (W1 & _).
    destruct (N.eqb_spec (N.of_nat (length msg)) 0) as [Z|Z]; [destruct msg; [reflexivity|cbn in Z; lia]|].
    assert (SM : HEADER + N.of_nat (length msg) < two64).
    { unfold HEADER, two64. change (2 ^ 63) with 9223372036854775808 in W1. change (2 ^ 64) with 18446744073709551616. lia. }
    unfold uadd. destruct (N.ltb_spec (HEADER + N.of_nat (length msg)) two64); [|lia]. cbn [bind].
    unfold HEADER in *. destruct (N.ltb_spec (cb_len b) (24 + N.of_nat (length msg))); [lia|]. destruct (N.ltb_spec (24 + N.of_nat (length msg)) 24); [lia|].
    f_equal. apply readm_holds; [lia|exact H3].
  - intros H. unfold set_message, validate_capacity, HEADER. destruct (N.ltb_spec (cb_len b) 24); [eauto|].
    destruct (N.ltb_spec (cb_len b - 24) (N.of_nat (length msg))); [eauto|]. destruct H as [-> |H]; [eauto|lia].
Qed.

(** Reading succeeds exactly if the header in memory is still the one last set, and returns as many bytes as were set. *)
Theorem c66_get_message : forall dbg m b, mem_ok m -> buf_ok b ->
  (forall msg, get_message dbg m b = Ok msg <->
    24 <= cb_len b /\ holds m (cb_addr b) (addressee b) /\ holds m (cb_addr b + 16) (le_bytes 8 (cb_mlen b)) /\
    N.of_nat (length msg) = cb_mlen b /\ holds m (cb_addr b + 24) msg) /\ get_message dbg m b <> Panic.
Proof.
  intros dbg m b MO W. unfold get_message. destruct (verify_spec m b MO W) as [((L & H1 & H2) & ->)|(N & e & ->)]; cbn [bind].
  2:{ split; [|discriminate]. intros msg. split; [discriminate|]. intros (A & B & C & _). destruct N. auto. }
  pose proof W as (W1 & _ & W3 & _).
  destruct (N.eqb_spec (cb_mlen b) 0) as [Z|Z].
  { split; [|discriminate]. intros msg. split.
    - intros E. injection E as <-. repeat (split; [assumption|]). split; [cbn; congruence|]. intros i Hi. cbn in Hi. lia.
    - intros (_ & _ & _ & E & _). destruct msg; [reflexivity|cbn in E; lia]. }
  assert (SM : HEADER + cb_mlen b < two64).
  { unfold HEADER, two64. change (2 ^ 63) with 9223372036854775808 in W1. change (2 ^ 64) with 18446744073709551616. lia. }
  unfold uadd. destruct (N.ltb_spec (HEADER + cb_mlen b) two64); [|lia]. cbn [bind]. unfold HEADER in *.
  destruct (N.ltb_spec (cb_len b) (24 + cb_mlen b)); [lia|]. destruct (N.ltb_spec (24 + cb_mlen b) 24); [lia|]. split; [|discriminate].
  assert (CAN : 24 + cb_mlen b - 24 = cb_mlen b) by lia. rewrite CAN. intros msg. split.
  - intros E. assert (E' : readm m (cb_addr b + 24) (N.to_nat (cb_mlen b)) = msg) by congruence. clear E. subst msg.
    repeat (split; [assumption|]). rewrite readm_length. split; [lia|]. apply (readm_holds _ _ _ (N.to_nat (cb_mlen b))); [apply readm_length|reflexivity].
  - intros (_ & _ & _ & E & HM). f_equal. apply readm_holds; [lia|exact HM].
Qed.

(** ** The service *)

(** Whatever the buffer's own record of the message says, nothing outside the buffer is read. *)
Theorem c66_get_within : forall dbg m b msg, get_message dbg m b = Ok msg -> msg = [] \/ 24 + N.of_nat (length msg) <= cb_len b.
Proof.
  intros dbg m b msg H. unfold get_message in H. destruct (verify m b); try discriminate H. cbn [bind] in H. destruct (cb_mlen b =? 0); [left; congruence|].
  destruct (uadd dbg HEADER (cb_mlen b)) as [e| |]; try discriminate H. cbn [bind] in H. destruct (N.ltb_spec (cb_len b) e) as [|L]; [discriminate H|].
  destruct (N.ltb_spec e HEADER) as [|L2]; [discriminate H|]. right. injection H as <-. rewrite readm_length. unfold HEADER in *. lia.
Qed.

Lemma find_some : forall l id p b q, find_buf l id = Some (p, b, q) -> l = p ++ b :: q /\ cb_id b = id /\ forall c, In c p -> cb_id c <> id.
Proof.
  induction l as [|c l IH]; intros id p b q H; cbn [find_buf] in H; [discriminate|]. destruct (N.eqb_spec (cb_id c) id) as [E|E].
  - injection H as <- <- <-. split; [reflexivity|]. split; [exact E|intros c0 []].
  - destruct (find_buf l id) as [((p', b'), q')|] eqn:F; [|discriminate]. injection H as <- <- <-. destruct (IH id p' b' q' F) as (-> & H2 & H3).
    split; [reflexivity|]. split; [exact H2|]. intros c0 [<-|Hc]; auto.
Qed.

Lemma find_first : forall l id b, first_with_id l id b -> exists p q, find_buf l id = Some (p, b, q).
Proof.
  intros l id b (p & q & -> & H1 & H2). induction p as [|c p IH]; cbn [app find_buf].
  - rewrite H1, N.eqb_refl. eauto.
  - destruct (N.eqb_spec (cb_id c) id) as [E|E]; [destruct (H2 c (or_introl eq_refl) E)|]. destruct IH as (p' & q' & ->); [intros c0 Hc; apply H2; right; exact Hc|]. eauto.
Qed.

Lemma find_none : forall l id, find_buf l id = None -> forall b, In b l -> cb_id b <> id.
Proof.
  induction l as [|c l IH]; intros id H b Hb; [destruct Hb|]. cbn [find_buf] in H. destruct (N.eqb_spec (cb_id c) id) as [E|E]; [discriminate|].
  destruct (find_buf l id) as [((p', b'), q')|] eqn:F; [discriminate|]. destruct Hb as [<-|Hb]; [exact E|]. eapply IH; eauto.
Qed.

(** Requests that are refused do nothing. *)
Theorem c66_refused : forall dbg bufs m trigger id data guid,
  let o := communicate dbg bufs m trigger id data guid in
  let nothing e := o = Outcome (Err e) bufs m None in
  (bufs = [] -> nothing NoCommBuffer) /\
  (bufs <> [] -> data = [] -> nothing InvalidDataBuffer) /\
  (bufs <> [] -> data <> [] -> trigger = None -> nothing SwMmiServiceNotAvailable) /\
  (bufs <> [] -> data <> [] -> trigger <> None -> (forall b, In b bufs -> cb_id b <> id) -> nothing CommBufferNotFound) /\
  (forall b, data <> [] -> trigger <> None -> first_with_id bufs id b -> cb_len b < 24 + N.of_nat (length data) -> nothing CommBufferTooSmall).
Proof.
  intros dbg bufs m tr id data g o nothing. unfold nothing, o, communicate. clear o nothing.
  split; [intros ->; reflexivity|]. split; [intros H ->; destruct bufs; [congruence|reflexivity]|].
  split; [intros H H1 ->; destruct bufs; [congruence|]; destruct data; [congruence|reflexivity]|]. split.
  - intros H H1 H2 H3. destruct bufs as [|b0 bufs]; [congruence|]. destruct data as [|x data]; [congruence|]. destruct tr as [tr|]; [|congruence].
    destruct (find_buf (b0 :: bufs) id) as [((p, b), q)|] eqn:F; [|reflexivity]. exfalso. apply find_some in F. destruct F as (E & F1 & _). apply (H3 b); [|exact F1].
    rewrite E. apply in_or_app. right. left. reflexivity.
  - intros b H1 H2 HF L. destruct (find_first bufs id b HF) as (p & q & F). destruct bufs as [|b0 bufs]; [discriminate|]. destruct data as [|x data]; [congruence|].
    destruct tr as [tr|]; [|congruence]. rewrite F. unfold HEADER. destruct (N.ltb_spec (cb_len b) (24 + N.of_nat (length (x :: data)))); [reflexivity|lia].
Qed.

(** Every other request enters management mode exactly once, with the values 0xFF and 0, when the first buffer with the
    id holds recipient, length and data and no other memory has been touched.  If management mode reports success and the
    header in memory is still the same, the answer is what follows it, as long as the request; if the header was changed
    the answer is refused. *)
Theorem c66_sent : forall dbg bufs m tr id data guid b, Forall buf_ok bufs -> is_guid guid -> data <> [] ->
  first_with_id bufs id b -> 24 + N.of_nat (length data) <= cb_len b ->
  exists m2, let o := communicate dbg bufs m (Some tr) id data guid in
    o_seen o = Some (m2, 0xFF, 0) /\
    holds_message m2 (cb_addr b) guid data /\ only_within m m2 (cb_addr b) (24 + N.of_nat (length data)) /\
    Forall buf_ok (o_bufs o) /\ Forall2 same_place bufs (o_bufs o) /\
    match tr m2 0xFF 0 with
    | MPanic m3 => o_res o = Panic /\ o_mem o = m3
    | MErr m3 => o_res o = Err SwMmiFailed /\ o_mem o = m3
    | MOk m3 => o_mem o = m3 /\ (mem_ok m3 ->
        let intact := holds m3 (cb_addr b) guid /\ holds m3 (cb_addr b + 16) (le_bytes 8 (N.of_nat (length data))) in
        (intact -> exists answer, o_res o = Ok answer /\ length answer = length data /\ holds m3 (cb_addr b + 24) answer) /\
        (~ intact -> o_res o = Err InvalidResponse))
    end.
Proof.
  intros dbg bufs m tr id data g b WA HG HD HF HL. destruct (find_first bufs id b HF) as (p & q & F). pose proof (find_some _ _ _ _ _ F) as (EB & _ & _).
  assert (W : buf_ok b) by (rewrite EB in WA; apply Forall_app in WA; destruct WA as (_ & WA); now inversion WA).
  destruct (info_ok m b g W HG ltac:(lia)) as (E1 & W1). set (b1 := CBuf (cb_addr b) (cb_len b) (cb_id b) (Some g) (cb_mlen b)) in *.
  set (m1 := writem m (cb_addr b) (header_bytes g (cb_mlen b))) in *.
  destruct (set_ok m1 b1 g data W1 eq_refl HL) as (m2 & E2 & W2 & HM & F2). cbn [b1 cb_addr cb_len cb_id] in *. fold b1 in E2.
  set (b2 := CBuf (cb_addr b) (cb_len b) (cb_id b) (Some g) (N.of_nat (length data))) in *.
  exists m2. unfold communicate. destruct bufs as [|b0 bufs]; [discriminate|]. destruct data as [|x data]; [congruence|]. rewrite F.
  unfold HEADER. destruct (N.ltb_spec (cb_len b) (24 + N.of_nat (length (x :: data)))); [lia|]. rewrite E1, E2. cbv zeta.
  assert (F3 : only_within m m2 (cb_addr b) (24 + N.of_nat (length (x :: data)))).
  { intros y Hy. rewrite F2 by exact Hy. apply (writem_within m (cb_addr b) (header_bytes g (cb_mlen b))). rewrite header_length by apply HG. lia. }
  assert (WB : Forall buf_ok (p ++ b2 :: q)).
  { rewrite EB in WA. apply Forall_app in WA. destruct WA as (A1 & A2). inversion A2; subst. apply Forall_app. split; [exact A1|]. constructor; assumption. }
  assert (SP : Forall2 same_place (b0 :: bufs) (p ++ b2 :: q)).
  { rewrite EB. assert (R : forall l, Forall2 same_place l l) by (induction l; constructor; auto; unfold same_place; auto).
    apply Forall2_app; [apply R|]. constructor; [unfold same_place; auto|apply R]. }
  destruct (tr m2 255 0) as [m3|m3|m3].
  - assert (GET : mem_ok m3 -> let intact := holds m3 (cb_addr b) g /\ holds m3 (cb_addr b + 16) (le_bytes 8 (N.of_nat (length (x :: data)))) in
      (intact -> exists answer, get_message dbg m3 b2 = Ok answer /\ length answer = length (x :: data) /\ holds m3 (cb_addr b + 24) answer) /\
      (~ intact -> exists e, get_message dbg m3 b2 = Err e)).
    { intros MO. cbv zeta. destruct (c66_get_message dbg m3 b2 MO W2) as (G1 & G2). split.
      - intros (I1 & I2). set (r := readm m3 (cb_addr b + 24) (length (x :: data))). exists r.
        assert (L : length r = length (x :: data)) by apply readm_length.
        assert (HR : holds m3 (cb_addr b + 24) r) by (apply (readm_holds _ _ _ (length (x :: data))); [exact L|reflexivity]).
        split; [|auto]. apply G1. cbn [b2 cb_len cb_addr cb_mlen]. split; [lia|]. split; [exact I1|]. split; [exact I2|]. split; [congruence|exact HR].
      - intros NI. destruct (get_message dbg m3 b2) as [r|e|] eqn:G; [|eauto|congruence]. exfalso. apply NI.
        destruct (proj1 (G1 r) eq_refl) as (_ & I1 & I2 & _). auto. }
    destruct (get_message dbg m3 b2) as [r|e|] eqn:G; cbn [o_seen o_bufs o_res o_mem]; repeat (split; [first [reflexivity|assumption]|]); intros MO; destruct (GET MO) as (G1 & G2).
    + split; [intros I; destruct (G1 I) as (r' & E & X); injection E as <-; eauto|intros NI; destruct (G2 NI); discriminate].
    + split; [intros I; destruct (G1 I) as (r' & E & X); discriminate|reflexivity].
    + split; [intros I; destruct (G1 I) as (r' & E & X); discriminate|intros NI; destruct (G2 NI); discriminate].
  - cbn [o_seen o_bufs o_res o_mem]. repeat (split; [first [reflexivity|assumption]|]). reflexivity.
  - cbn [o_seen o_bufs o_res o_mem]. repeat (split; [first [reflexivity|assumption]|]). reflexivity.
Qed.

(** So an answer of another length, told by its header as the protocol asks, never arrives. *)
Theorem c66_answer_of_other_length_refuted : forall dbg bufs m tr id data guid b m2 m3 n, Forall buf_ok bufs -> is_guid guid -> data <> [] ->
  first_with_id bufs id b -> 24 + N.of_nat (length data) <= cb_len b ->
  o_seen (communicate dbg bufs m (Some tr) id data guid) = Some (m2, 0xFF, 0) ->
  tr m2 0xFF 0 = MOk m3 -> mem_ok m3 -> n < 2 ^ 64 -> n <> N.of_nat (length data) -> holds m3 (cb_addr b + 16) (le_bytes 8 n) ->
  o_res (communicate dbg bufs m (Some tr) id data guid) = Err InvalidResponse.
Proof.
  intros dbg bufs m tr id data g b m2 m3 n WA HG HD HF HL HS HT MO Hn NE HH.
  destruct (c66_sent dbg bufs m tr id data g b WA HG HD HF HL) as (m2' & S1 & _ & _ & _ & _ & S2). rewrite HS in S1. injection S1 as <-. rewrite HT in S2.
  destruct S2 as (_ & S2). destruct (S2 MO) as (_ & S3). apply S3. intros (_ & I). apply NE.
  apply (readm_holds _ _ _ 8 (le_bytes_length _ _)) in HH. apply (readm_holds _ _ _ 8 (le_bytes_length _ _)) in I. rewrite HH in I.
  apply (f_equal le_val) in I. assert (LD : N.of_nat (length data) < 256 ^ N.of_nat 8).
  { assert (W : buf_ok b) by (destruct HF as (p & q & -> & _); apply Forall_app in WA; destruct WA as (_ & WA); now inversion WA).
    destruct W as (W1 & _). change (256 ^ N.of_nat 8) with 18446744073709551616. change (2 ^ 63) with 9223372036854775808 in W1. lia. }
  rewrite !le_val_bytes in I; [exact I|exact LD|exact Hn].
Qed.

(** ** Histories: calls with whatever trigger, and anything happening to memory in between *)
Record request := Request { r_before : mem -> mem; r_trigger : option (mem -> N -> N -> mmi); r_id : N; r_data : list N; r_guid : list N }.

Fixpoint run (dbg : bool) (bufs : list cbuf) (m : mem) (l : list request) : list (res mstatus (list N)) * list cbuf :=
  match l with
  | [] => ([], bufs)
  | r :: l' =>
      let o := communicate dbg bufs (r_before r m) (r_trigger r) (r_id r) (r_data r) (r_guid r) in
      let (rs, bufs') := run dbg (o_bufs o) (o_mem o) l' in (o_res o :: rs, bufs')
  end.

Definition well_behaved (r : request) : Prop :=
  is_guid (r_guid r) /\ (forall m, mem_ok m -> mem_ok (r_before r m)) /\
  forall tr m a c, r_trigger r = Some tr -> mem_ok m -> match tr m a c with MOk m' | MErr m' => mem_ok m' | MPanic _ => False end.

Lemma writem_ok : forall m a l, mem_ok m -> Forall (fun b => b < 256) l -> mem_ok (writem m a l).
Proof.
  intros m a l MO HL x. unfold writem. destruct ((a <=? x) && (x <? a + N.of_nat (length l))) eqn:E; [|apply MO].
  rewrite Forall_forall in HL. apply HL, nth_In. apply andb_true_iff in E. rewrite N.leb_le, N.ltb_lt in E. lia.
Qed.

Lemma communicate_ok : forall dbg bufs m tr id data g, Forall buf_ok bufs -> is_guid g -> mem_ok m -> Forall (fun b => b < 256) data ->
  (forall t m a c, tr = Some t -> mem_ok m -> match t m a c with MOk m' | MErr m' => mem_ok m' | MPanic _ => False end) ->
  let o := communicate dbg bufs m tr id data g in o_res o <> Panic /\ Forall buf_ok (o_bufs o) /\ Forall2 same_place bufs (o_bufs o) /\ mem_ok (o_mem o).
Proof.
  intros dbg bufs m tr id data g WA HG MO HB HT o.
  assert (R : forall l, Forall2 same_place l l) by (induction l; constructor; auto; unfold same_place; auto).
  destruct (c66_refused dbg bufs m tr id data g) as (R1 & R2 & R3 & R4 & R5). cbv zeta in R1, R2, R3, R4, R5. fold o in R1, R2, R3, R4, R5.
  assert (NOP : forall e, o = Outcome (Err e) bufs m None -> o_res o <> Panic /\ Forall buf_ok (o_bufs o) /\ Forall2 same_place bufs (o_bufs o) /\ mem_ok (o_mem o)).
  { intros e ->. cbn. repeat split; auto; discriminate. }
  assert (CB : bufs = [] \/ bufs <> []) by (destruct bufs; [left; reflexivity|right; discriminate]). destruct CB as [EB|NB]; [eapply NOP, R1, EB|].
  assert (CD : data = [] \/ data <> []) by (destruct data; [left; reflexivity|right; discriminate]). destruct CD as [ED|ND]; [eapply NOP, R2; auto|].
  assert (CT : tr = None \/ exists t, tr = Some t) by (destruct tr; eauto). destruct CT as [ET|(t & ET)]; [eapply NOP, R3; auto|].
  assert (NT : tr <> None) by (rewrite ET; discriminate).
  destruct (find_buf bufs id) as [((p, b), q)|] eqn:F; [|eapply NOP, R4; auto; apply find_none, F].
  apply find_some in F. assert (HF : first_with_id bufs id b) by (exists p, q; exact F).
  destruct (N.lt_ge_cases (cb_len b) (24 + N.of_nat (length data))) as [L|L]; [eapply NOP, (R5 b); auto|].
  destruct (c66_sent dbg bufs m t id data g b WA HG ND HF L) as (m2 & S1 & S2 & S3 & S4 & S5 & S6). unfold o in *. rewrite ET in *. clear o NOP R1 R2 R3 R4 R5.
  assert (MO2 : mem_ok m2).
  { intros y. destruct (N.lt_ge_cases y (cb_addr b)) as [Y|Y]; [rewrite S3 by lia; apply MO|].
    destruct (N.lt_ge_cases y (cb_addr b + (24 + N.of_nat (length data)))) as [Y2|Y2]; [|rewrite S3 by lia; apply MO].
    assert (HA : holds m2 (cb_addr b) ((g ++ le_bytes 8 (N.of_nat (length data))) ++ data)).
    { destruct S2 as (A1 & A2 & A3). destruct HG as (GL & _). apply holds_app. split; [apply holds_app; split; [exact A1|rewrite GL; exact A2]|].
      rewrite app_length, GL, le_bytes_length. exact A3. }
    assert (BO : Forall (fun b => b < 256) ((g ++ le_bytes 8 (N.of_nat (length data))) ++ data)).
    { destruct HG as (_ & GB). apply Forall_app. split; [apply Forall_app; split; [exact GB|apply le_bytes_ok]|exact HB]. }
    assert (HI : (N.to_nat (y - cb_addr b) < length ((g ++ le_bytes 8 (N.of_nat (length data))) ++ data))%nat).
    { destruct HG as (GL & _). rewrite !app_length, GL, le_bytes_length. lia. }
    specialize (HA _ HI). replace (cb_addr b + N.of_nat (N.to_nat (y - cb_addr b))) with y in HA by lia. rewrite HA.
    rewrite Forall_forall in BO. apply BO, nth_In, HI. }
  specialize (HT t m2 255 0 eq_refl MO2). destruct (t m2 255 0) as [m3|m3|m3]; [|destruct S6 as (S6 & S7)|contradiction].
  - destruct S6 as (S6 & S7). destruct (S7 HT) as (S8 & S9). split; [|rewrite S6; auto]. intros P.
    destruct (c66_get_message dbg m3 (CBuf (cb_addr b) (cb_len b) (cb_id b) (Some g) (N.of_nat (length data)))) as (G1 & G2); [exact HT| |].
    { assert (W : buf_ok b) by (destruct F as (-> & _); apply Forall_app in WA; destruct WA as (_ & WA); now inversion WA). destruct W as (W1 & W2 & _). unfold buf_ok. cbn. auto. }
    destruct (get_message dbg m3 (CBuf (cb_addr b) (cb_len b) (cb_id b) (Some g) (N.of_nat (length data)))) as [r|e|] eqn:G; [| |congruence].
    + destruct (proj1 (G1 r) eq_refl) as (_ & I1 & I2 & _). destruct S8 as (a & S8 & _); [auto|congruence].
    + destruct (verify_spec m3 (CBuf (cb_addr b) (cb_len b) (cb_id b) (Some g) (N.of_nat (length data))) HT) as [((_ & I1 & I2) & _)|(NI & _)].
      * assert (W : buf_ok b) by (destruct F as (-> & _); apply Forall_app in WA; destruct WA as (_ & WA); now inversion WA). destruct W as (W1 & W2 & _). unfold buf_ok. cbn. auto.
      * destruct S8 as (a & S8 & _); [auto|congruence].
      * rewrite S9 in P; [discriminate|]. intros (I1 & I2). apply NI. cbn. split; [lia|]. auto.
  - split; [congruence|]. rewrite S7. auto.
Qed.

(** No sequence of calls panics, and no call makes a buffer anything but the same buffer. *)
Theorem c66_never_panics : forall dbg l bufs m rs bufs', Forall buf_ok bufs -> mem_ok m -> Forall well_behaved l ->
  (forall r, In r l -> Forall (fun b => b < 256) (r_data r)) ->
  run dbg bufs m l = (rs, bufs') -> ~ In Panic rs /\ Forall buf_ok bufs' /\ Forall2 same_place bufs bufs'.
Proof.
  intros dbg. induction l as [|r l IH]; intros bufs m rs bufs' WA MO WL HD H; cbn [run] in H.
  { injection H as <- <-. split; [auto|]. split; [exact WA|]. clear. induction bufs; constructor; auto; unfold same_place; auto. }
  inversion WL as [|? ? (G1 & G2 & G3) WL']; subst.
  destruct (communicate_ok dbg bufs (r_before r m) (r_trigger r) (r_id r) (r_data r) (r_guid r) WA G1 (G2 m MO) (HD r (or_introl eq_refl))) as (P & W2 & SP & MO2); [exact G3|].
  destruct (run dbg (o_bufs (communicate dbg bufs (r_before r m) (r_trigger r) (r_id r) (r_data r) (r_guid r))) _ l) as [rs' b'] eqn:E. injection H as <- <-.
  destruct (IH _ _ _ _ W2 MO2 WL' (fun r0 H0 => HD r0 (or_intror H0)) E) as (I1 & I2 & I3). split; [intros [X|X]; auto|]. split; [exact I2|].
  revert SP I3. generalize (o_bufs (communicate dbg bufs (r_before r m) (r_trigger r) (r_id r) (r_data r) (r_guid r))). clear.
  intros mid A. revert b'. induction A as [|x y l1 l2 (X1 & X2 & X3) A IH]; intros b' B; inversion B; subst; constructor; auto.
  destruct H1 as (Y1 & Y2 & Y3). unfold same_place. repeat split; congruence.
Qed.

(** ** Examples and what does not hold *)
Definition demo_guid : list N := [1; 2; 3; 4; 5; 6; 7; 8; 9; 10; 11; 12; 13; 14; 15; 16].
Definition demo_mem : mem := fun _ => 7.
Definition demo_bufs : list cbuf := [CBuf 0x1000 64 3 None 0; CBuf 0x2000 64 5 None 0].
(** Management mode that adds one to each of the three bytes of the request, in the second buffer. *)
Definition adder : mem -> N -> N -> mmi := fun m _ _ => MOk (fun x => if (0x2018 <=? x) && (x <? 0x201B) then (m x + 1) mod 256 else m x).

Example demo_ok : Forall buf_ok demo_bufs /\ is_guid demo_guid /\ first_with_id demo_bufs 5 (CBuf 0x2000 64 5 None 0).
Proof.
  split; [repeat constructor|]. split; [split; [reflexivity|repeat constructor]|].
  exists [CBuf 0x1000 64 3 None 0], []. split; [reflexivity|]. split; [reflexivity|]. intros c [<-|[]]. discriminate.
Qed.

Example demo_answer : forall dbg, o_res (communicate dbg demo_bufs demo_mem (Some adder) 5 [10; 20; 30] demo_guid) = Ok [11; 21; 31].
Proof. intros dbg. destruct dbg; vm_compute; reflexivity. Qed.

(** A handler that answers with two bytes where it was asked with three, and says so. *)
Definition short_answer : mem -> N -> N -> mmi := fun m _ _ => MOk (writem m 0x2010 (le_bytes 8 2)).
Example demo_short : forall dbg, o_res (communicate dbg demo_bufs demo_mem (Some short_answer) 5 [10; 20; 30] demo_guid) = Err InvalidResponse.
Proof. intros dbg. destruct dbg; vm_compute; reflexivity. Qed.

(** A clone of a buffer - the configuration keeps one of each - cannot read what the service put there. *)
Theorem c66_clone_refuted : forall dbg, let b := CBuf 0x2000 64 5 None 0 in let o := communicate dbg demo_bufs demo_mem (Some adder) 5 [10; 20; 30] demo_guid in
  In b demo_bufs /\ o_res o = Ok [11; 21; 31] /\ get_message dbg (o_mem o) b = Err InvalidRecipient /\ get_message_length (o_mem o) b = Err InvalidRecipient.
Proof. intros dbg b o. split; [right; left; reflexivity|]. destruct dbg; repeat split; vm_compute; reflexivity. Qed.

(** Two buffers that share memory, which nothing prevents: what was put into one is lost by addressing the other.  The
    first reading is before, the second after. *)
Definition shared_memory (dbg : bool) : option (res cstatus (list N) * res cstatus unit * res cstatus (list N)) :=
  match from_firmware_region demo_mem 0x1000 64 1 with
  | Ok (b1, m1) =>
      match from_firmware_region m1 0x1000 64 2 with
      | Ok (b2, m2) =>
          let '(_, m3, b1') := set_message_info m2 b1 demo_guid in
          let '(_, m4, b1'') := set_message m3 b1' [1] in
          let '(r, m5, _) := set_message_info m4 b2 (rev demo_guid) in
          Some (get_message dbg m4 b1'', r, get_message dbg m5 b1'')
      | _ => None
      end
  | _ => None
  end.
Theorem c66_overlap_refuted : forall dbg, shared_memory dbg = Some (Ok [1], Ok tt, Err InvalidRecipient).
Proof. intros dbg. destruct dbg; vm_compute; reflexivity. Qed.

(** The trigger writes the command port first: management mode is entered before the data port has its value.  Ports of
    the other kind panic. *)
Theorem c66_trigger : forall c d cmd data,
  trigger_sw_mmi (Smi c) (Smi d) cmd data = ([(c, cmd); (d, data)], Ok tt) /\
  (forall p, snd (trigger_sw_mmi (Smc p) (Smi d) cmd data) = Panic) /\ (forall p, snd (trigger_sw_mmi (Smi c) (Smc p) cmd data) = Panic).
Proof. auto. Qed.

Print Assumptions c66_region.
Print Assumptions c66_raw_parts.
Print Assumptions c66_get_within.
Print Assumptions c66_set_message.
Print Assumptions c66_get_message.
Print Assumptions c66_refused.
Print Assumptions c66_sent.
Print Assumptions c66_answer_of_other_length_refuted.
Print Assumptions c66_never_panics.
