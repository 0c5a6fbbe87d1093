From Coq Require Import String List Arith ZArith Bool Lia.
From Verif Require Import Base.Prelude Model.Readers Model.Driver Spec.Readers Spec.Driver
  Proofs.Readers Proofs.Combined.
Import ListNotations.
Open Scope nat_scope.

Lemma Forall2_len : forall A B (R : A -> B -> Prop) l l', Forall2 R l l' -> length l = length l'.
Proof. intros A B R l l' H; induction H; cbn; auto. Qed.

Section Loop.
Context {S C O A : Type}.
Variable read : nat -> Z -> result (nat * option C).
Variable process : S -> C -> result (S * option O).
Variable T : list A.
Variable R : list A -> C -> Prop.
Variable k : nat.
Hypothesis kpos : 0 < k.
Hypothesis reads : forall s, s < length T ->
  exists c, read s (Z.of_nat k) = Ok (s + length (slice s (Some k) T), Some c) /\ R (slice s (Some k) T) c.

Lemma loop_inv : forall rounds pre rest st stt tr,
  T = pre ++ rest -> block_start st = length pre ->
  (rest <> [] -> startChunk st = Z.of_nat (length pre) /\ endChunk st = Z.of_nat (length pre)) ->
  (rest = [] -> (Z.of_nat (length T) <= endChunk st)%Z) ->
  main_loop read process rounds (Z.of_nat (length T)) (Z.of_nat k) st = (stt, tr) ->
  exists blocks, Forall2 R blocks (map fst tr) /\ cut_into k (firstn (length tr * k) rest) blocks /\
    match stt with
    | Done => ceil_div (length rest) k (length tr)
    | Interrupted => length tr = rounds /\ rounds * k < length rest
    | Stopped e => length tr * k < length rest /\ exists s c, process s c = Err e
    end.
Proof.
  induction rounds as [|rounds IH]; intros pre rest st stt tr HT Hb Hne Hnil Hrun.
  - cbn [main_loop] in Hrun.
    assert (Hb0 : forall l : list A, cut_into k (firstn (0 * k) l) []) by (intro; split; [reflexivity|constructor]).
    destruct (endChunk st <? Z.of_nat (length T))%Z eqn:E; inversion Hrun; subst; exists []; cbn;
      (split; [constructor|split; [split; [reflexivity|constructor]|]]).
    + split; auto. destruct rest as [|a rest]; [|cbn; lia].
      specialize (Hnil eq_refl). apply Z.ltb_lt in E. lia.
    + apply Z.ltb_ge in E. unfold ceil_div. destruct rest as [|a rest]; [cbn; lia|].
      destruct (Hne ltac:(discriminate)) as [_ He]. rewrite He, app_length in E. cbn in E. lia.
  - cbn [main_loop] in Hrun.
    destruct (endChunk st <? Z.of_nat (length T))%Z eqn:E.
    2:{ inversion Hrun; subst. exists []. split; [constructor|split; [split; [reflexivity|constructor]|]].
        apply Z.ltb_ge in E. unfold ceil_div. destruct rest as [|a rest]; [cbn; lia|].
        destruct (Hne ltac:(discriminate)) as [_ He]. rewrite He, app_length in E. cbn in E. lia. }
    destruct rest as [|a rest].
    { specialize (Hnil eq_refl). apply Z.ltb_lt in E. lia. }
    destruct (Hne ltac:(discriminate)) as [Hs He]. clear Hne Hnil.
    set (rst := a :: rest) in *.
    assert (Hlen : length T = length pre + length rst) by (rewrite HT, app_length; auto).
    assert (Hrl : 0 < length rst) by (cbn; lia).
    destruct (reads (block_start st)) as [c [Hrd HR]]; [lia|].
    rewrite Hrd in Hrun.
    assert (Hsl : slice (block_start st) (Some k) T = firstn k rst).
    { rewrite Hb, HT. cbn [slice]. rewrite skipn_app, skipn_all, Nat.sub_diag. reflexivity. }
    rewrite Hsl in *.
    destruct (process (inner st) c) as [[s' o]|e] eqn:Ep.
    2:{ inversion Hrun; subst. exists []. split; [constructor|split; [split; [reflexivity|constructor]|]].
        split; [cbn; lia|eauto]. }
    destruct (main_loop read process rounds _ _ _) as [stt' tr'] eqn:El in Hrun.
    cbn [fst snd] in Hrun. inversion Hrun; subst stt tr. clear Hrun.
    assert (Hlb : length (firstn k rst) = Nat.min k (length rst)) by apply firstn_length.
    edestruct IH with (pre := pre ++ firstn k rst) (rest := skipn k rst) (5 := El)
      as [blocks [HF [[Hc1 Hc2] Hst]]].
    { rewrite <- app_assoc, firstn_skipn; exact HT. }
    { cbn [block_start]. rewrite app_length, Hb. reflexivity. }
    { intro Hn. cbn [startChunk endChunk].
      assert (k < length rst).
      { destruct (le_lt_dec (length rst) k) as [H|H]; auto.
        exfalso. apply Hn. apply skipn_all2. lia. }
      rewrite app_length, Hlb, Hs, Nat.min_l by lia. split; lia. }
    { intro Hn. cbn [endChunk].
      assert (length rst <= k).
      { apply (f_equal (@length _)) in Hn. rewrite skipn_length in Hn. change (length (@nil A)) with 0 in Hn. lia. }
      rewrite Hs, Hlen. lia. }
    exists (firstn k rst :: blocks). split; [constructor; auto|]. split.
    + split.
      * cbn [concat length]. rewrite Hc1. change (Datatypes.S (length tr') * k) with (k + length tr' * k).
        rewrite <- (firstn_skipn k rst) at 3. rewrite firstn_app, Hlb.
        rewrite (firstn_all2 (n := k + length tr' * k) (firstn k rst)) by lia. f_equal.
        destruct (le_lt_dec (length rst) k).
        -- rewrite skipn_all2 by lia. rewrite !firstn_nil. auto.
        -- f_equal. lia.
      * constructor; auto. split; [|lia].
        destruct k as [|k']; [lia|]. subst rst. cbn. discriminate.
    + rewrite skipn_length in Hst. cbn [length]. destruct stt'.
      * unfold ceil_div in *. cbn [Nat.mul]. destruct (length tr') as [|m]; cbn [Nat.mul] in *; lia.
      * cbn [Nat.mul]. destruct Hst. split; auto. lia.
      * cbn [Nat.mul]. lia.
Qed.
End Loop.

Lemma loop_from_start : forall S C O A (read : nat -> Z -> result (nat * option C))
    (process : S -> C -> result (S * option O)) (T : list A) (R : list A -> C -> Prop) k,
  0 < k ->
  (forall s, s < length T -> exists c,
     read s (Z.of_nat k) = Ok (s + length (slice s (Some k) T), Some c) /\ R (slice s (Some k) T) c) ->
  forall rounds s0 stt tr,
  run read process rounds (Z.of_nat (length T)) (Z.of_nat k) s0 = (stt, tr) ->
  exists blocks, Forall2 R blocks (map fst tr) /\ cut_into k (firstn (length tr * k) T) blocks /\
    match stt with
    | Done => ceil_div (length T) k (length tr)
    | Interrupted => length tr = rounds /\ rounds * k < length T
    | Stopped e => length tr * k < length T /\ exists s c, process s c = Err e
    end.
Proof.
  intros S C O A read process T R k Hk Hr rounds s0 stt tr H.
  eapply (loop_inv read process T R k Hk Hr rounds [] T) with (5 := H); cbn; auto; try lia.
  intro E; rewrite E; cbn; lia.
Qed.

Lemma slice_block : forall A (T : list A) s k, s < length T -> 0 < k -> slice s (Some k) T <> [].
Proof.
  intros A T s k H1 H2 E. apply (f_equal (@length _)) in E. cbn [slice] in E.
  rewrite firstn_length, skipn_length in E. cbn in E. lia.
Qed.

Lemma slice_ids : forall R (T : list (string * R)) s n, NoDup (map fst T) -> NoDup (map fst (slice s n T)).
Proof.
  intros R T s n H.
  assert (Hs : forall (l : list (string * R)) m, subseq (skipn m l) l).
  { induction l; intros [|m]; cbn; try apply subseq_refl; constructor; auto. }
  assert (Hf : forall (l : list (string * R)) m, subseq (firstn m l) l).
  { induction l; intros [|m]; cbn; try apply subseq_refl; constructor; auto. apply subseq_nil. }
  eapply subseq_NoDup; [apply subseq_map|exact H].
  destruct n as [m|]; cbn [slice]; auto.
  eapply subseq_trans; [apply Hf|apply Hs].
Qed.

Lemma slice_in : forall A (T : list A) s n x, In x (slice s n T) -> In x T.
Proof.
  intros A T s n x H. destruct n as [m|]; cbn [slice] in H.
  - rewrite <- (firstn_skipn s T). apply in_or_app. right.
    rewrite <- (firstn_skipn m (skipn s T)). apply in_or_app. auto.
  - rewrite <- (firstn_skipn s T). apply in_or_app. auto.
Qed.

(** What a block read in external mode holds. *)
Definition ext_block {E R} (EPH : list (string * E)) (tables : list (list (string * R)))
    (b : list (string * R)) (js : list (joined E R)) : Prop :=
  exists eph, selected (fun e => In (fst e) (map fst b)) EPH eph
    /\ Forall2 (fun e j => fst j = e /\ own_data (fst e) (b :: tables) (snd j)) eph js.

Lemma ext_reads : forall E R (EPH : list (string * E)) ephem (aux0 : nat -> option nat -> result (list (string * R))) others tables T k,
  exact_reader EPH ephem -> (forall s n, aux0 s n = Ok (slice s n T)) ->
  Forall2 exact_reader tables others ->
  NoDup (map fst T) -> (forall X, In X tables -> NoDup (map fst X)) ->
  (forall i, In i (map fst T) -> forall X, In X tables -> In i (map fst X)) -> 0 < k ->
  forall s, s < length T -> exists c,
    read_external aux0 ephem others s (Z.of_nat k) = Ok (s + length (slice s (Some k) T), Some c)
    /\ ext_block EPH tables (slice s (Some k) T) c.
Proof.
  intros E R EPH ephem aux0 others tables T k He Ha Ho HT HX Hi Hk s Hs.
  unfold read_external. destruct (Z.ltb_spec (Z.of_nat k) 0) as [Hz|_]; [lia|]. rewrite Nat2Z.id.
  destruct (C19_exact_proof E R EPH ephem aux0 others tables s (Some k) (slice s (Some k) T))
    as [js [eph [H1 [H2 H3]]]]; auto.
  - apply slice_block; auto.
  - apply slice_ids; auto.
  - intros i Hin X HXin. apply Hi; auto. apply in_map_iff in Hin. destruct Hin as [x [<- Hx]].
    apply in_map. eapply slice_in; eauto.
  - exists js. split; auto. exists eph. auto.
Qed.

Lemma C13_external_proof : forall E R S O (EPH : list (string * E)) ephem (aux0 : nat -> option nat -> result (list (string * R))) others tables T
    (process : S -> list (joined E R) -> result (S * option O)) k,
  exact_reader EPH ephem -> (forall s n, aux0 s n = Ok (slice s n T)) ->
  Forall2 exact_reader tables others ->
  NoDup (map fst T) -> (forall X, In X tables -> NoDup (map fst X)) ->
  (forall i, In i (map fst T) -> forall X, In X tables -> In i (map fst X)) -> 0 < k ->
  forall rounds s0 stt tr,
  run (read_external aux0 ephem others) process rounds (Z.of_nat (length T)) (Z.of_nat k) s0 = (stt, tr) ->
  exists blocks,
    Forall2 (fun b js => exists eph, selected (fun e => In (fst e) (map fst b)) EPH eph /\
               Forall2 (fun e j => fst j = e /\ own_data (fst e) (b :: tables) (snd j)) eph js)
      blocks (map fst tr) /\
    cut_into k (firstn (length tr * k) T) blocks /\
    match stt with
    | Done => concat blocks = T /\ ceil_div (length T) k (length tr)
    | Interrupted => length tr = rounds /\ rounds * k < length T
    | Stopped e => length tr * k < length T /\ exists s c, process s c = Err e
    end.
Proof.
  intros E R S O EPH ephem aux0 others tables T process k He Ha Ho HT HX Hi Hk rounds s0 stt tr Hrun.
  destruct (loop_from_start _ _ _ _ _ process T (ext_block EPH tables) k Hk
    (ext_reads E R EPH ephem aux0 others tables T k He Ha Ho HT HX Hi Hk) rounds s0 stt tr Hrun)
    as [blocks [H1 [H2 H3]]].
  exists blocks. split; [exact H1|]. split; [exact H2|].
  destruct stt; auto. split; auto. destruct H2 as [H2 _]. rewrite H2. apply firstn_all2.
  destruct H3; lia.
Qed.

Lemma C13_internal_proof : forall R S O (aux0 : nat -> option nat -> result (list (string * R))) others tables T
    (process : S -> list (aux_joined R) -> result (S * option O)) k,
  (forall s n, aux0 s n = Ok (slice s n T)) ->
  Forall2 exact_reader tables others ->
  (forall X, In X tables -> NoDup (map fst X)) ->
  (forall i, In i (map fst T) -> forall X, In X tables -> In i (map fst X)) -> 0 < k ->
  forall rounds s0 stt tr,
  run (read_internal aux0 others) process rounds (Z.of_nat (length T)) (Z.of_nat k) s0 = (stt, tr) ->
  Forall (fun js => js <> [] /\ length js <= k) (map fst tr) /\
  Forall2 (fun r j => fst j = r /\ own_data (fst r) tables (snd j))
    (firstn (length tr * k) T) (concat (map fst tr)) /\
  match stt with
  | Done => ceil_div (length T) k (length tr)
  | Interrupted => length tr = rounds /\ rounds * k < length T
  | Stopped e => length tr * k < length T /\ exists s c, process s c = Err e
  end.
Proof.
  intros R S O aux0 others tables T process k Ha Ho HX Hi Hk rounds s0 stt tr Hrun.
  destruct (loop_from_start _ _ _ _ (read_internal aux0 others) process T
     (fun b js => Forall2 (fun r j => fst j = r /\ own_data (fst r) tables (snd j)) b js) k Hk)
   with (rounds := rounds) (s0 := s0) (stt := stt) (tr := tr) as [blocks [H1 [[H2 H3] H4]]]; auto.
  - intros s Hs. unfold read_internal. destruct (Z.ltb_spec (Z.of_nat k) 0) as [Hz|_]; [lia|]. rewrite Nat2Z.id.
    destruct (C19_aux_exact_proof R aux0 others tables s (Some k) (slice s (Some k) T))
      as [js [Hj1 Hj2]]; auto.
    + apply slice_block; auto.
    + intros i Hin X HXin. apply Hi; auto. apply in_map_iff in Hin. destruct Hin as [x [<- Hx]].
      apply in_map. eapply slice_in; eauto.
    + exists js. auto.
  - split; [|split; auto].
    + clear - H1 H3. revert H1 H3. generalize (map fst tr). intros cs0 H1. induction H1 as [|b js bl cs HF HFs IH]; intro H3; [constructor|].
      inversion H3 as [|? ? [Hn Hle] H5]; subst. constructor; auto.
      assert (Hl := Forall2_len _ _ _ _ _ HF). split; [|exact (eq_ind _ (fun m => m <= k) Hle _ Hl)].
      intro; subst js. destruct b; [auto|discriminate].
    + rewrite <- H2. clear - H1. revert H1. generalize (map fst tr). intros cs0 H1. induction H1; cbn; auto. apply Forall2_app; auto.
Qed.

(** Any read that covers the table makes the loop stop after the number of
    rounds needed, whatever the rounds write or skip. *)
Lemma C13_terminates_proof : forall S C O A (T : list A) (read : nat -> Z -> result (nat * option C))
    (process : S -> C -> result (S * option O)) k,
  0 < k ->
  (forall s, s < length T -> exists c,
     read s (Z.of_nat k) = Ok (s + length (slice s (Some k) T), Some c)) ->
  (forall s c, exists s' o, process s c = Ok (s', o)) ->
  forall rounds s0, length T <= rounds * k -> exists tr,
  run read process rounds (Z.of_nat (length T)) (Z.of_nat k) s0 = (Done, tr) /\
  ceil_div (length T) k (length tr).
Proof.
  intros S C O A T read process k Hk Hr Hp rounds s0 Hrd.
  destruct (run read process rounds (Z.of_nat (length T)) (Z.of_nat k) s0) as [stt tr] eqn:E.
  destruct (loop_from_start S C O A read process T (fun _ _ => True) k Hk) with (2 := E) as [bl [_ [_ H]]].
  { intros s Hs. destruct (Hr s Hs) as [c Hc]. eauto. }
  destruct stt.
  - eauto.
  - destruct H as [_ [s [c Hc]]]. destruct (Hp s c) as [s' [o Ho]]. congruence.
  - destruct H. lia.
Qed.

(** A chunk size the loop cannot progress with stops the run at once. *)
Lemma C14_loop_proof : forall E R S O ephem (aux0 : nat -> option nat -> result (list (string * R))) others
    (T : list (string * R)) (process : S -> list (joined E R) -> result (S * option O)) size,
  (forall s n, aux0 s n = Ok (slice s n T)) -> (size <= 0)%Z -> T <> [] ->
  forall rounds s0, 0 < rounds -> exists e,
  run (read_external aux0 ephem others) process rounds (Z.of_nat (length T)) size s0 = (Stopped e, []).
Proof.
  intros E R S O ephem aux0 others T process size Ha Hs HT rounds s0 Hr.
  destruct rounds as [|rounds]; [lia|]. unfold run. cbn [main_loop initial endChunk].
  destruct (Z.ltb_spec 0 (Z.of_nat (length T))) as [_|H].
  2:{ destruct T; [congruence|cbn in H; lia]. }
  cbn [block_start]. unfold read_external. destruct (size <? 0)%Z eqn:Ez; [eauto|].
  apply Z.ltb_ge in Ez. replace size with 0%Z by lia. unfold read_block. rewrite Ha. cbn. eauto.
Qed.
Lemma C14_loop_internal_proof : forall R S O (aux0 : nat -> option nat -> result (list (string * R))) others
    (T : list (string * R)) (process : S -> list (aux_joined R) -> result (S * option O)) size,
  (forall s n, aux0 s n = Ok (slice s n T)) -> (size <= 0)%Z -> T <> [] ->
  forall rounds s0, 0 < rounds -> exists e,
  run (read_internal aux0 others) process rounds (Z.of_nat (length T)) size s0 = (Stopped e, []).
Proof.
  intros R S O aux0 others T process size Ha Hs HT rounds s0 Hr.
  destruct rounds as [|rounds]; [lia|]. unfold run. cbn [main_loop initial endChunk].
  destruct (Z.ltb_spec 0 (Z.of_nat (length T))) as [_|H].
  2:{ destruct T; [congruence|cbn in H; lia]. }
  cbn [block_start]. unfold read_internal. destruct (size <? 0)%Z eqn:Ez; [eauto|].
  apply Z.ltb_ge in Ez. replace size with 0%Z by lia. unfold read_aux_block. rewrite Ha. cbn. eauto.
Qed.

(** Cutting a run off earlier leaves a prefix of what it would have written. *)
Lemma main_loop_prefix : forall S C O (read : nat -> Z -> result (nat * option C))
    (process : S -> C -> result (S * option O)) lenf size k1 k2 st,
  k1 <= k2 ->
  prefix_of (snd (main_loop read process k1 lenf size st)) (snd (main_loop read process k2 lenf size st)).
Proof.
  intros S C O read process lenf size. induction k1 as [|k1 IH]; intros k2 st H.
  - cbn [main_loop]. destruct (endChunk st <? lenf)%Z eqn:E; cbn [snd]; eexists; reflexivity.
  - destruct k2 as [|k2]; [lia|]. cbn [main_loop].
    destruct (endChunk st <? lenf)%Z eqn:E; [|exists []; reflexivity].
    destruct (read (block_start st) size) as [[nx [c|]]|e]; try (exists []; reflexivity).
    destruct (process (inner st) c) as [[s' o]|e]; try (exists []; reflexivity).
    cbn [snd]. destruct (IH k2 {| startChunk := startChunk st + size; endChunk := startChunk st + size;
       loopCounter := Datatypes.S (loopCounter st); block_start := nx; inner := s' |}) as [d Hd]; [lia|].
    exists d. rewrite Hd. reflexivity.
Qed.

Lemma written_app : forall C O (a b : list (C * option O)), written (a ++ b) = written a ++ written b.
Proof. intros; unfold written; apply flat_map_app. Qed.

Lemma C22_prefix_proof : forall S C O (read : nat -> Z -> result (nat * option C))
    (process : S -> C -> result (S * option O)) lenf size s0 k1 k2, k1 <= k2 ->
  prefix_of (written (snd (run read process k1 lenf size s0))) (written (snd (run read process k2 lenf size s0))).
Proof.
  intros. destruct (main_loop_prefix S C O read process lenf size k1 k2 (initial s0) H) as [d Hd].
  exists (written d). unfold run. rewrite Hd. apply written_app.
Qed.
