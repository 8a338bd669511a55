(** Proofs about the buffers of the asynchronous operations. *)
From stdpp Require Import prelude.
From Coq Require Import Lia.
From Verif Require Import Base AioBufModel.
Local Open Scope nat_scope.

(** Number of occurrences. *)
Definition occ (b : buf) (l : list buf) : nat := length (filter (b =.) l).

Lemma occ_nil b : occ b [] = 0.
Proof. done. Qed.
Lemma occ_cons b x l : occ b (x :: l) = (if decide (b = x) then 1 else 0) + occ b l.
Proof. unfold occ. rewrite filter_cons. by destruct (decide (b = x)). Qed.
Lemma occ_app b l k : occ b (l ++ k) = occ b l + occ b k.
Proof. unfold occ. by rewrite filter_app, app_length. Qed.
Lemma occ_elem b l : b ∈ l <-> 1 <= occ b l.
Proof.
  induction l as [|x l IH]; [by rewrite occ_nil, elem_of_nil; split; [|lia]|].
  rewrite occ_cons, elem_of_cons. destruct (decide (b = x)) as [->|]; [split; [lia|by left]|].
  rewrite IH. split; [by intros [?|?]|by right].
Qed.
Lemma occ_free b x l : occ b (v_free x l) = if decide (b = x) then 0 else occ b l.
Proof.
  unfold v_free. induction l as [|y l IH]; [by destruct (decide (b = x))|].
  rewrite filter_cons. destruct (decide (y <> x)) as [n|n].
  - rewrite !occ_cons, IH. destruct (decide (b = x)), (decide (b = y)); by subst.
  - rewrite IH, occ_cons. destruct (decide (b = x)), (decide (b = y)); subst; try done; by destruct n.
Qed.
Lemma occ_notin b l : b ∉ l -> occ b l = 0.
Proof. rewrite occ_elem. lia. Qed.

(** Buffers a thread has allocated for its call and still owns. *)
Definition held (t : vthr) : list buf :=
  match vt_pc t with
  | VIdle => []
  | VFill _ _ subs => subs
  | VSub _ todo subs acc => if decide (acc + length todo = length subs) then todo else subs
  | VFree _ l => l
  end.
(** Buffers of its call whose request was accepted. *)
Definition taken (t : vthr) : list buf :=
  match vt_pc t with VSub _ todo subs acc => take acc subs | _ => [] end.

(** The buffers of the first requests of a call. *)
Definition bufs (i n k : nat) : list buf := (fun j => ((i, n), j)) <$> seq 0 k.
Lemma bufs_S i n k : bufs i n (S k) = bufs i n k ++ [((i, n), k)].
Proof. unfold bufs. by rewrite seq_S, fmap_app. Qed.
Lemma bufs_length i n k : length (bufs i n k) = k.
Proof. unfold bufs. by rewrite fmap_length, seq_length. Qed.
Lemma bufs_elem i n k b : b ∈ bufs i n k <-> b.1 = (i, n) /\ b.2 < k.
Proof.
  unfold bufs. rewrite elem_of_list_fmap. split.
  - intros (j & -> & Hj%elem_of_seq). simpl. split; [done|lia].
  - intros [? ?]. exists b.2. split; [destruct b; simpl in *; by subst|]. apply elem_of_seq. lia.
Qed.
Lemma bufs_occ i n k b : occ b (bufs i n k) = if decide (b.1 = (i, n) /\ b.2 < k) then 1 else 0.
Proof.
  induction k as [|k IH].
  - rewrite decide_False; [done|]. lia.
  - rewrite bufs_S, occ_app, IH, occ_cons, occ_nil. destruct b as [p j]. simpl.
    destruct (decide (p = (i, n))) as [->|Hp].
    + destruct (lt_eq_lt_dec j k) as [[?| ->]|?].
      * rewrite decide_True, decide_False, decide_True by (split; [done|lia] || (intros [=]; lia)). done.
      * rewrite decide_False, decide_True, decide_True by (split; [done|lia] || done || lia). done.
      * rewrite !decide_False by ((intros [=]; lia) || lia). done.
    + rewrite !decide_False by ((intros [=]; done) || (intros [? ?]; done)). done.
Qed.

Section buffers.
  Variable size : nat.
  Variable may_refuse may_abort : nat -> nat -> bool.
  Variable progs : list (list vcall).

  (** A call is refused as a whole. *)
  Hypothesis Hrefuse : forall k n, may_refuse k n = true -> n <= 1.
  Hypothesis Habort : forall k n, may_abort k n = true -> k = 0.

  Definition cur (t : vthr) : option vcall :=
    match vt_pc t with VIdle => None | VFill c _ _ | VSub c _ _ _ | VFree c _ => Some c end.

  (** What is known about one thread. *)
  Definition tinv (i : nat) (al : list buf) (t : vthr) : Prop :=
    (exists p, progs !! i = Some p /\
      match cur t with
      | None => drop (vt_n t) p = vt_calls t
      | Some c => drop (vt_n t) p = c :: vt_calls t
      end) /\
    (forall b, b ∈ al -> b.1.1 = i -> b.1.2 <= vt_n t) /\
    match vt_pc t with
    | VIdle => forall b, b ∈ al -> b.1 <> (i, vt_n t)
    | VFill c todo subs => subs = bufs i (vt_n t) (length subs) /\
        length subs + length todo = length (call_idx c) /\
        (forall b, b.1 = (i, vt_n t) -> b ∈ al <-> b ∈ subs)
    | VSub c todo subs acc => subs = bufs i (vt_n t) (length (call_idx c)) /\
        (forall b, b.1 = (i, vt_n t) -> b ∈ al <-> b ∈ subs) /\
        (todo = drop acc subs /\ acc <= length subs \/ todo = [] /\ acc = 0 /\ length subs = 1)
    | VFree c l => c <> AsyncPush
    end.

  (** The call a buffer is for. *)
  Definition call_of (b : buf) : option vcall := progs !! b.1.1 ≫= (fun p => p !! b.1.2).

  (** Why a buffer stays allocated. *)
  Definition lost_reason (ca : list (buf * bool)) (rt : list ((nat * nat) * vret)) (b : buf) : Prop :=
    ((exists l, call_of b = Some (AsyncGets l)) /\ (b, false) ∈ ca) \/
    (b.1, RIndex) ∈ rt \/ (b.1, RAlloc) ∈ rt \/
    (call_of b = Some AsyncPush /\ (b.1, RSubmit) ∈ rt).

  (** The calls that ended. *)
  Definition rinv (rt : list ((nat * nat) * vret)) (ts : list vthr) : Prop :=
    (forall p e, (p, e) ∈ rt -> exists t, ts !! p.1 = Some t /\ p.2 < vt_n t) /\
    (forall p e e', (p, e) ∈ rt -> (p, e') ∈ rt -> e = e') /\
    (forall i t n, ts !! i = Some t -> n < vt_n t -> exists e, ((i, n), e) ∈ rt).

  Definition inv (s : vst) : Prop := exists lost okl,
    b_bad s = false /\
    length (b_threads s) = length progs /\
    (forall b, occ b (b_live s) = occ b (concat (held <$> b_threads s)) + occ b (b_flight s).*1 +
       occ b (b_arrived s).*1.*1 + occ b (b_user s) + occ b lost) /\
    (forall b, occ b (b_live s) <= occ b (b_alloced s) <= 1) /\
    (forall b, occ b (b_flight s).*1 + occ b (b_arrived s).*1.*1 + occ b (b_called s).*1 =
       occ b okl + occ b (concat (taken <$> b_threads s))) /\
    (forall b, occ b okl <= 1) /\ (forall b, b ∈ okl <-> b ∈ b_alloced s /\ (b.1, ROk) ∈ b_ret s) /\
    (forall b, b ∈ lost <-> b ∈ b_alloced s /\ lost_reason (b_called s) (b_ret s) b) /\
    (forall b c, (b, c) ∈ b_flight s \/ (exists ok, (b, c, ok) ∈ b_arrived s) -> call_of b = Some c) /\
    (forall i t, b_threads s !! i = Some t -> tinv i (b_alloced s) t) /\
    rinv (b_ret s) (b_threads s) /\
    (forall b, b ∈ b_alloced s -> exists c, call_of b = Some c /\ b.2 < length (call_idx c)) /\
    (forall b c, (b.1, ROk) ∈ b_ret s -> call_of b = Some c -> b.2 < length (call_idx c) -> b ∈ b_alloced s).

  Lemma concat_mid {A} (f : vthr -> list A) t1 t t2 :
    concat (f <$> t1 ++ t :: t2) = concat (f <$> t1) ++ f t ++ concat (f <$> t2).
  Proof. rewrite fmap_app, concat_app. done. Qed.

  Lemma lookup_mid {A} (t1 : list A) t t2 i x :
    (t1 ++ t :: t2) !! i = Some x ->
    (i = length t1 /\ x = t) \/ (i <> length t1 /\ forall t', (t1 ++ t' :: t2) !! i = Some x).
  Proof.
    intros H. destruct (decide (i = length t1)) as [->|Hne].
    - rewrite list_lookup_middle in H by done. left. split; congruence.
    - right. split; [done|]. intros t'.
      destruct (decide (i < length t1)) as [Hl|Hl].
      + rewrite lookup_app_l in H |- * by lia. done.
      + rewrite lookup_app_r in H |- * by lia.
        destruct (i - length t1) as [|k] eqn:E; [lia|]. done.
  Qed.

  Lemma init_ok : inv (vinit progs).
  Proof.
    exists [], []. unfold vinit; cbn [b_bad b_threads b_live b_flight b_arrived b_user b_called b_alloced b_ret].
    assert (Hf : forall f : vthr -> list buf, (forall p, f (VThr VIdle 0 p) = []) ->
      concat (f <$> ((fun p => VThr VIdle 0 p) <$> progs)) = []).
    { intros f Hf. induction progs as [|p l IH]; [done|]. rewrite !fmap_cons. simpl. by rewrite Hf, IH. }
    split; [done|]. split; [by rewrite fmap_length|]. split.
    { intros b. by rewrite Hf. }
    split; [intros b; rewrite occ_nil; lia|]. split.
    { intros b. by rewrite Hf. }
    split; [intros b; rewrite occ_nil; lia|]. split.
    { intros b. rewrite !elem_of_nil. naive_solver. }
    split.
    { intros b. rewrite !elem_of_nil. naive_solver. }
    split.
    { intros b c [H|[? H]]; by apply elem_of_nil in H. }
    split.
    { intros i t. rewrite list_lookup_fmap. destruct (progs !! i) as [p|] eqn:E; [|done].
      intros [= <-]. split; [exists p; done|]. split; [|intros b Hb; by apply elem_of_nil in Hb].
      intros b Hb; by apply elem_of_nil in Hb. }
    split; [|split; [intros b H; by apply elem_of_nil in H|intros b c H; by apply elem_of_nil in H]].
    split; [intros p e H; by apply elem_of_nil in H|].
    split; [intros p e e' H; by apply elem_of_nil in H|].
    intros i t n. rewrite list_lookup_fmap. destruct (progs !! i); [|done]. intros [= <-]. simpl. lia.
  Qed.

  Lemma lookup_upd (P P' : nat -> vthr -> Prop) t1 t t2 t' :
    (forall i x, (t1 ++ t :: t2) !! i = Some x -> P i x) ->
    (forall i x, i <> length t1 -> P i x -> P' i x) -> P' (length t1) t' ->
    forall i x, (t1 ++ t' :: t2) !! i = Some x -> P' i x.
  Proof.
    intros H HP Ht i x Hx. destruct (lookup_mid _ _ _ _ _ Hx) as [[-> ->]|[Hne Hl]]; [done|].
    apply HP; [done|]. apply H. apply Hl.
  Qed.

  Lemma rinv_same rt t1 t t2 t' : rinv rt (t1 ++ t :: t2) -> vt_n t' = vt_n t -> rinv rt (t1 ++ t' :: t2).
  Proof.
    intros (H1 & H2 & H3) Hn. split; [|split; [done|]].
    - intros p e Hp. destruct (H1 p e Hp) as (x & Hx & Hlt).
      destruct (lookup_mid _ _ _ _ _ Hx) as [[-> ->]|[Hne Hl]].
      + exists t'. rewrite list_lookup_middle by done. split; [done|lia].
      + exists x. split; [apply Hl|done].
    - intros i x n Hx Hlt. destruct (lookup_mid _ _ _ _ _ Hx) as [[-> ->]|[Hne Hl]].
      + apply (H3 _ t); [by rewrite list_lookup_middle|lia].
      + apply (H3 _ x); [apply Hl|done].
  Qed.

  Lemma rinv_next rt t1 t t2 e cs : rinv rt (t1 ++ t :: t2) ->
    rinv (rt ++ [((length t1, vt_n t), e)]) (t1 ++ v_next (vt_n t) cs :: t2).
  Proof.
    intros (H1 & H2 & H3). split; [|split].
    - intros p e' [Hp|Hp%elem_of_list_singleton]%elem_of_app.
      + destruct (H1 p e' Hp) as (x & Hx & Hlt).
        destruct (lookup_mid _ _ _ _ _ Hx) as [[-> ->]|[Hne Hl]].
        * exists (v_next (vt_n t) cs). rewrite list_lookup_middle by done. split; [done|simpl; lia].
        * exists x. split; [apply Hl|done].
      + injection Hp as -> ->. exists (v_next (vt_n t) cs). simpl.
        rewrite list_lookup_middle by done. split; [done|simpl; lia].
    - assert (Hno : forall e', ((length t1, vt_n t), e') ∉ rt).
      { intros e' Hp. destruct (H1 _ _ Hp) as (x & Hx & Hlt). simpl in *.
        rewrite list_lookup_middle in Hx by done. injection Hx as <-. lia. }
      intros p e1 e2 [Hp|Hp%elem_of_list_singleton]%elem_of_app [Hq|Hq%elem_of_list_singleton]%elem_of_app.
      + by apply (H2 p).
      + injection Hq as -> ->. by destruct (Hno e1).
      + injection Hp as -> ->. by destruct (Hno e2).
      + congruence.
    - intros i x n Hx Hlt. destruct (lookup_mid _ _ _ _ _ Hx) as [[-> ->]|[Hne Hl]].
      + simpl in Hlt. destruct (decide (n = vt_n t)) as [->|Hn].
        * exists e. apply elem_of_app. right. by apply elem_of_list_singleton.
        * destruct (H3 (length t1) t n) as [e' ?]; [by rewrite list_lookup_middle|lia|].
          exists e'. apply elem_of_app. by left.
      + destruct (H3 i x n) as [e' ?]; [apply Hl|done|]. exists e'. apply elem_of_app. by left.
  Qed.

  (** A thread whose call has just ended. *)
  Lemma tinv_next i al t t' c : cur t = Some c -> vt_n t' = S (vt_n t) -> vt_calls t' = vt_calls t ->
    vt_pc t' = VIdle -> tinv i al t -> tinv i al t'.
  Proof.
    intros Hc Hn Hcs Hpc ((p & Hp & Hd) & Hle & _). unfold tinv, cur. rewrite Hpc, Hn, Hcs.
    rewrite Hc in Hd. split; [|split].
    - exists p. split; [done|]. rewrite <- Nat.add_1_r, <- drop_drop, Hd. done.
    - intros b Hb Hi. specialize (Hle b Hb Hi). lia.
    - intros b Hb Hi. assert (b.1.1 = i) by (by rewrite Hi). specialize (Hle b Hb H).
      rewrite Hi in Hle. simpl in Hle. lia.
  Qed.

  Lemma tinv_call i al t c b : cur t = Some c -> tinv i al t -> b.1 = (i, vt_n t) -> call_of b = Some c.
  Proof.
    intros Hc ((p & Hp & Hd) & _) Hb. rewrite Hc in Hd. unfold call_of. rewrite Hb. simpl. rewrite Hp. simpl.
    rewrite <- (Nat.add_0_r (vt_n t)), <- lookup_drop, Hd. done.
  Qed.

  Lemma step_A lv fl ar us ca al rt t1 t t2 lv' fl' bd bd' t' :
    inv (VSt lv fl ar us ca bd al rt (t1 ++ t :: t2)) ->
    bd' = false -> vt_n t' = vt_n t -> tinv (length t1) al t' ->
    (forall b, occ b lv' + occ b (held t) + occ b fl.*1 = occ b lv + occ b (held t') + occ b fl'.*1) ->
    (forall b, occ b lv' <= occ b lv) ->
    (forall b, occ b fl'.*1 + occ b (taken t) = occ b fl.*1 + occ b (taken t')) ->
    (forall b c, (b, c) ∈ fl' -> (b, c) ∈ fl \/ call_of b = Some c) ->
    inv (VSt lv' fl' ar us ca bd' al rt (t1 ++ t' :: t2)).
  Proof.
    intros (lost & okl & Hbd & Hlen & Hlive & Hal & Hsum & Hok1 & Hok & Hlost & Hcall & Hthr & Hr & Hlt & Hfull) -> Hn Ht HL HL2 HT HF.
    cbn [b_bad b_threads b_live b_flight b_arrived b_user b_called b_alloced b_ret] in *.
    exists lost, okl. cbn [b_bad b_threads b_live b_flight b_arrived b_user b_called b_alloced b_ret].
    split; [done|]. split; [by rewrite app_length in *|].
    split. { intros b. specialize (Hlive b). specialize (HL b). rewrite concat_mid, !occ_app in *. lia. }
    split. { intros b. specialize (Hal b). specialize (HL2 b). lia. }
    split. { intros b. specialize (Hsum b). specialize (HT b). rewrite concat_mid, !occ_app in *. lia. }
    split; [done|]. split; [done|]. split; [done|].
    split. { intros b c [H|H]; [destruct (HF b c H); [by apply Hcall; left|done]|by apply Hcall; right]. }
    split. { eapply lookup_upd; [exact Hthr|by intros; cbn beta|done]. }
    split; [|done]. eapply rinv_same; done.
  Qed.

  Lemma step_B lv fl ar us ca al rt t1 t t2 bd dl dk c e t' :
    inv (VSt lv fl ar us ca bd al rt (t1 ++ t :: t2)) -> cur t = Some c ->
    t' = v_next (vt_n t) (vt_calls t) ->
    (forall b, occ b (held t) = occ b dl) -> (forall b, occ b (taken t) = occ b dk) ->
    (forall b, b ∈ dk <-> b ∈ al /\ b.1 = (length t1, vt_n t) /\ e = ROk) ->
    (forall b, b ∈ dl <-> b ∈ al /\ b.1 = (length t1, vt_n t) /\ (e = RIndex \/ e = RAlloc \/ (c = AsyncPush /\ e = RSubmit))) ->
    (forall b, e = ROk -> b.1 = (length t1, vt_n t) -> b.2 < length (call_idx c) -> b ∈ al) ->
    inv (VSt lv fl ar us ca bd al (rt ++ [((length t1, vt_n t), e)]) (t1 ++ t' :: t2)).
  Proof.
    intros (lost & okl & Hbd & Hlen & Hlive & Hal & Hsum & Hok1 & Hok & Hlost & Hcall & Hthr & Hr & Hlt & Hfull) Hc -> HL HT HK HD HE.
    cbn [b_bad b_threads b_live b_flight b_arrived b_user b_called b_alloced b_ret] in *.
    assert (Hti : tinv (length t1) al t) by (apply Hthr; by rewrite list_lookup_middle).
    assert (Hno : forall e', ((length t1, vt_n t), e') ∉ rt).
    { intros e' Hp. destruct Hr as (Hr & _). destruct (Hr _ _ Hp) as (x & Hx & Hl). simpl in *.
      rewrite list_lookup_middle in Hx by done. injection Hx as <-. lia. }
    exists (dl ++ lost), (dk ++ okl). cbn [b_bad b_threads b_live b_flight b_arrived b_user b_called b_alloced b_ret].
    split; [done|]. split; [by rewrite app_length in *|].
    split. { intros b. specialize (Hlive b). specialize (HL b). rewrite concat_mid, !occ_app in *.
      change (held (v_next (vt_n t) (vt_calls t))) with (@nil buf). rewrite occ_nil. lia. }
    split; [done|].
    split. { intros b. specialize (Hsum b). specialize (HT b). rewrite concat_mid, !occ_app in *.
      change (taken (v_next (vt_n t) (vt_calls t))) with (@nil buf). rewrite occ_nil. lia. }
    split.
    { intros b. rewrite occ_app. destruct (decide (b ∈ okl)) as [Hb|Hb].
      - rewrite (occ_notin b dk); [specialize (Hok1 b); lia|]. intros (_ & Hb1 & _)%HK.
        apply Hok in Hb as [_ Hb]. rewrite Hb1 in Hb. by destruct (Hno ROk).
      - rewrite (occ_notin b okl) by done. specialize (HT b). rewrite <- HT. specialize (Hsum b).
        destruct (decide (b ∈ dk)) as [Hk|Hk]; [|rewrite HT, (occ_notin b dk); [lia|done]].
        destruct Hti as (_ & _ & Hti). unfold taken in *. destruct (vt_pc t) as [| | |]; try (rewrite occ_nil; lia).
        destruct Hti as (Hsubs & _). transitivity (occ b subs).
        { rewrite <- (take_drop acc subs) at 2. rewrite occ_app. lia. }
        rewrite Hsubs, bufs_occ. case_decide; lia. }
    split.
    { intros b. rewrite !elem_of_app, elem_of_list_singleton, HK, Hok. split.
      - intros [(? & -> & ->)|[? ?]]; [split; [done|by right]|split; [done|by left]].
      - intros [? [?|[= ? <-]]]; [by right|left; done]. }
    split.
    { intros b. rewrite elem_of_app, HD, Hlost. unfold lost_reason. rewrite !elem_of_app, !elem_of_list_singleton.
      split.
      - intros [(Hb & Hb1 & He)|(? & [?|[?|[?|[? ?]]]])]; [|tauto..].
        split; [done|]. right. rewrite Hb1. destruct He as [->|[->|[-> ->]]].
        + left. by right.
        + right. left. by right.
        + right. right. split; [|by right]. by eapply tinv_call.
      - intros (Hb & [Hg|[[H|H]|[[H|H]|[H' [H|H]]]]]).
        + right. split; [done|by left].
        + right. split; [done|]. right. by left.
        + left. injection H as Hb1 <-. split; [done|]. split; [done|by left].
        + right. split; [done|]. right. right. by left.
        + left. injection H as Hb1 <-. split; [done|]. split; [done|right; by left].
        + right. split; [done|]. right. right. by right.
        + left. injection H as Hb1 <-. split; [done|]. split; [done|right; right].
          split; [|done]. pose proof (tinv_call _ _ _ _ _ Hc Hti Hb1). congruence. }
    split; [done|].
    split. { eapply lookup_upd; [exact Hthr|by intros; cbn beta|]. cbn beta. by eapply tinv_next. }
    split; [by apply rinv_next|]. split; [done|].
    intros b c' [Hb|[= Hb <-]%elem_of_list_singleton]%elem_of_app Hc' Hl; [by eapply Hfull|].
    apply HE; [done..|]. rewrite (tinv_call _ _ _ _ _ Hc Hti Hb) in Hc'. by injection Hc' as ->.
  Qed.

  Lemma occ_fst_cons b x (c : vcall) l : occ b (((x, c) :: l).*1) = (if decide (b = x) then 1 else 0) + occ b l.*1.
  Proof. by rewrite fmap_cons, occ_cons. Qed.

  Lemma step_alloc lv fl ar us ca al rt t1 t2 n c cs o todo subs bd :
    let i := length t1 in
    inv (VSt lv fl ar us ca bd al rt (t1 ++ VThr (VFill c (o :: todo) subs) n cs :: t2)) ->
    inv (VSt (((i, n), length subs) :: lv) fl ar us ca bd (((i, n), length subs) :: al) rt
      (t1 ++ VThr (VFill c todo (subs ++ [((i, n), length subs)])) n cs :: t2)).
  Proof.
    intros i (lost & okl & Hbd & Hlen & Hlive & Hal & Hsum & Hok1 & Hok & Hlost & Hcall & Hthr & Hr & Hlt & Hfull).
    cbn [b_bad b_threads b_live b_flight b_arrived b_user b_called b_alloced b_ret] in *.
    assert (Hti : tinv i al (VThr (VFill c (o :: todo) subs) n cs)) by (apply Hthr; by rewrite list_lookup_middle).
    destruct Hti as ((p & Hp & Hd) & Hle & Hsubs & Hlen' & Hal').
    cbn [vt_pc vt_n vt_calls cur] in *.
    set (nb := ((i, n), length subs) : buf).
    assert (Hnew : nb ∉ al).
    { intros H. apply Hal' in H; [|done]. rewrite Hsubs in H. apply bufs_elem in H as [_ H]. simpl in H. lia. }
    assert (Hno : forall e', ((i, n), e') ∉ rt).
    { intros e' Hp'. destruct Hr as (Hr & _). destruct (Hr _ _ Hp') as (x & Hx & Hl). simpl in *.
      unfold i in Hx. rewrite list_lookup_middle in Hx by done. injection Hx as <-. simpl in Hl. lia. }
    assert (Hil : exists c, call_of nb = Some c /\ nb.2 < length (call_idx c)).
    { exists c. split; [|simpl in *; lia]. unfold call_of. simpl. rewrite Hp. simpl.
      rewrite <- (Nat.add_0_r n), <- lookup_drop, Hd. done. }
    assert (Hlv0 : occ nb lv = 0). { specialize (Hal nb). rewrite (occ_notin nb al) in Hal by done. lia. }
    assert (Hnca : forall ok, (nb, ok) ∉ ca).
    { intros ok Hin. specialize (Hsum nb).
      assert (1 <= occ nb ca.*1) by (apply occ_elem, elem_of_list_fmap; by exists (nb, ok)).
      assert (occ nb okl = 0). { apply occ_notin. intros [? _]%Hok. done. }
      assert (Hta : forall ts, (forall j x, (ts !! j = Some x) -> exists j', tinv j' al x) -> occ nb (concat (taken <$> ts)) = 0).
      { intros ts. induction ts as [|x ts IH]; intros Hx; [done|].
        rewrite fmap_cons. simpl. rewrite occ_app, IH by (intros j y Hy; by apply (Hx (S j))).
        destruct (Hx 0 x eq_refl) as (j' & _ & _ & Hx'). unfold taken. destruct (vt_pc x); try by rewrite occ_nil.
        destruct Hx' as (Hs1 & Hs2 & _). rewrite occ_notin; [done|].
        intros Hin2. apply Hnew. assert (Hin3 : nb ∈ subs0) by (rewrite <- (take_drop acc subs0); apply elem_of_app; by left).
        apply Hs2; [|done]. rewrite Hs1 in Hin3. by apply bufs_elem in Hin3 as [? _]. }
      rewrite Hta in Hsum; [lia|]. intros j x Hx. exists j. by apply Hthr. }
    exists lost, okl. cbn [b_bad b_threads b_live b_flight b_arrived b_user b_called b_alloced b_ret].
    split; [done|]. split; [by rewrite app_length in *|].
    split. { intros b. specialize (Hlive b). rewrite concat_mid, !occ_app in *. unfold held at 2.
      unfold held in Hlive at 2. simpl in *. rewrite occ_cons, occ_app, occ_cons, occ_nil. lia. }
    split. { intros b. specialize (Hal b). rewrite !occ_cons. case_decide as E; [|lia].
      subst b. rewrite (occ_notin nb al) in * by done. lia. }
    split. { intros b. specialize (Hsum b). rewrite concat_mid, !occ_app in *. done. }
    split; [done|].
    split. { intros b. rewrite Hok, elem_of_cons. split; [intros [? ?]; split; [by right|done]|].
      intros [[->|?] ?]; [by destruct (Hno ROk)|done]. }
    split. { intros b. rewrite Hlost, elem_of_cons. split; [intros [? ?]; split; [by right|done]|].
      intros [[->|?] Hreas]; [|done]. exfalso.
      destruct Hreas as [[_ H]|[H|[H|[_ H]]]]; [by destruct (Hnca false)|by destruct (Hno RIndex)|by destruct (Hno RAlloc)|by destruct (Hno RSubmit)]. }
    split; [done|].
    split.
    { eapply lookup_upd; [exact Hthr| |]; cbn beta.
      - intros j x Hj (Hx1 & Hx2 & Hx3). split; [done|]. split.
        + intros b [->|Hb]%elem_of_cons Hbj; [simpl in Hbj; by destruct Hj|by apply Hx2].
        + destruct (vt_pc x).
          * intros b [->|Hb]%elem_of_cons Hbj; [injection Hbj as ? ?; by destruct Hj|by apply (Hx3 b)].
          * destruct Hx3 as (? & ? & Hx3). split; [done|]. split; [done|]. intros b Hb. rewrite elem_of_cons.
            rewrite <- (Hx3 b Hb). split; [|by right]. intros [->|?]; [|done]. injection Hb as ? ?. by destruct Hj.
          * destruct Hx3 as (? & Hx3 & ?). split; [done|]. split; [|done]. intros b Hb. rewrite elem_of_cons.
            rewrite <- (Hx3 b Hb). split; [|by right]. intros [->|?]; [|done]. injection Hb as ? ?. by destruct Hj.
          * done.
      - split; [by exists p|]. split.
        { intros b [->|Hb]%elem_of_cons Hbj; [done|by apply Hle]. }
        cbn [vt_pc vt_n vt_calls cur]. split; [|split].
        + rewrite app_length. simpl. rewrite Nat.add_1_r, bufs_S. f_equal. exact Hsubs.
        + rewrite app_length. simpl in *. lia.
        + intros b Hb. rewrite elem_of_cons, elem_of_app, elem_of_list_singleton, (Hal' b Hb). tauto. }
    split; [by eapply rinv_same|].
    split; [intros b [->|Hb]%elem_of_cons; [done|by apply Hlt]|].
    intros b c' Hb1 Hb2 Hb3. apply elem_of_cons. right. by eapply Hfull.
  Qed.

  Lemma take_S_occ acc (subs : list buf) b : occ b (take (S acc) subs) =
    occ b (take acc subs) + match subs !! acc with Some x => if decide (b = x) then 1 else 0 | None => 0 end.
  Proof.
    destruct (subs !! acc) as [x|] eqn:E.
    - rewrite (take_S_r _ _ x) by done. rewrite occ_app, occ_cons, occ_nil. lia.
    - apply lookup_ge_None in E. rewrite !take_ge by lia. lia.
  Qed.

  Lemma thread_ok s t1 t t2 s' t' : inv s -> b_threads s = t1 ++ t :: t2 ->
    vtstep size may_refuse may_abort (length t1) s t s' t' -> inv (set_vthreads s' (t1 ++ t' :: t2)).
  Proof.
    intros Hinv Hts Hst. destruct Hst; cbn [b_threads] in Hts; subst ts; unfold set_vthreads;
      cbn [b_bad b_threads b_live b_flight b_arrived b_user b_called b_alloced b_ret];
      pose proof Hinv as (lost & okl & Hbd & Hlen & Hlive & Hal & Hsum & Hok1 & Hok & Hlost & Hcall & Hthr & Hr & Hlt & Hfull);
      cbn [b_bad b_threads b_live b_flight b_arrived b_user b_called b_alloced b_ret] in *;
      (match goal with |- context [t1 ++ ?t' :: t2] => idtac end);
      (match type of Hthr with context [t1 ++ ?t0 :: t2] =>
        assert (Hti : tinv (length t1) al t0) by (apply Hthr; by rewrite list_lookup_middle);
        pose (tt := t0) end).
    - eapply step_A; try exact Hinv; try done; try (intros; tauto).
      destruct Hti as ((p & Hp & Hd) & Hle & Hno). cbn [vt_pc vt_n vt_calls cur] in *.
      split; [by exists p|]. split; [done|]. cbn [vt_pc vt_n]. split; [done|]. split; [done|].
      intros b Hb. rewrite elem_of_nil. split; [|done]. intros Hb'. by apply (Hno b).
    - pose proof Hti as (_ & _ & Hsubs & _ & Hals). cbn [vt_pc vt_n vt_calls cur] in *.
      eapply (step_B _ _ _ _ _ _ _ _ tt _ _ subs []); try exact Hinv; try done.
      + intros b. rewrite elem_of_nil. naive_solver.
      + intros b. cbn [vt_n]. split.
        * intros Hb. pose proof Hb as Hb'. rewrite Hsubs in Hb'. apply bufs_elem in Hb' as [Hb1 _].
          split; [by apply Hals|]. split; [done|by left].
        * intros (Hb & Hb1 & _). by apply Hals.
    - pose proof Hti as (_ & _ & Hsubs & _ & Hals). cbn [vt_pc vt_n vt_calls cur] in *.
      eapply (step_B _ _ _ _ _ _ _ _ tt _ _ subs []); try exact Hinv; try done.
      + intros b. rewrite elem_of_nil. naive_solver.
      + intros b. cbn [vt_n]. split.
        * intros Hb. pose proof Hb as Hb'. rewrite Hsubs in Hb'. apply bufs_elem in Hb' as [Hb1 _].
          split; [by apply Hals|]. split; [done|right; by left].
        * intros (Hb & Hb1 & _). by apply Hals.
    - by eapply step_alloc.
    - eapply step_A; try exact Hinv; try done; try (intros; tauto).
      + destruct Hti as ((p & Hp & Hd) & Hle & Hsubs & Hl & Hals). cbn [vt_pc vt_n vt_calls cur] in *.
        split; [by exists p|]. split; [done|]. cbn [vt_pc vt_n].
        simpl in Hl. rewrite Nat.add_0_r in Hl. split; [by rewrite <- Hl|]. split; [done|].
        left. split; [done|lia].
      + intros b. unfold held; cbn [vt_pc]. rewrite decide_True by done. lia.
    - destruct Hti as ((p & Hp & Hd) & Hle & Hsubs & Hals & Hcase). cbn [vt_pc vt_n vt_calls cur] in *.
      destruct Hcase as [[Htodo Hacc]|[? _]]; [|done].
      assert (Hsl : subs !! acc = Some b).
      { rewrite <- (Nat.add_0_r acc), <- lookup_drop, <- Htodo. done. }
      assert (Hlt' : acc < length subs) by (by eapply lookup_lt_Some).
      assert (Hlens : S acc + length todo = length subs).
      { apply (f_equal length) in Htodo. rewrite drop_length in Htodo. simpl in Htodo. lia. }
      eapply step_A; try exact Hinv; try done.
      + split; [by exists p|]. split; [done|]. cbn [vt_pc vt_n]. split; [done|]. split; [done|].
        left. split; [|lia]. replace (S acc) with (acc + 1) by lia. rewrite <- drop_drop, <- Htodo. done.
      + intros b'. unfold held; cbn [vt_pc]. rewrite !decide_True by (simpl; lia).
        rewrite occ_fst_cons, occ_cons. lia.
      + intros b'. unfold taken; cbn [vt_pc]. rewrite take_S_occ, Hsl, occ_fst_cons. lia.
      + intros b' c' [[= -> ->]|?]%elem_of_cons; [|by left]. right.
        apply (tinv_call (length t1) al (VThr (VSub c (b :: todo) subs acc) n cs)); [done| |].
        * apply Hthr. by rewrite list_lookup_middle.
        * cbn [vt_n]. assert (Hin : b ∈ subs) by (by eapply elem_of_list_lookup_2).
          rewrite Hsubs in Hin. by apply bufs_elem in Hin as [? _].
    - destruct Hti as ((p & Hp & Hd) & Hle & Hsubs & Hals & Hcase). cbn [vt_pc vt_n vt_calls cur] in *.
      destruct Hcase as [[Htodo Hacc]|[? _]]; [|done].
      apply Hrefuse in H.
      assert (Hlens : acc + S (length todo) = length subs).
      { apply (f_equal length) in Htodo. rewrite drop_length in Htodo. simpl in Htodo. lia. }
      assert (acc = 0) as -> by lia. assert (todo = []) as -> by (apply nil_length_inv; lia).
      rewrite drop_0 in Htodo. simpl in Hlens.
      eapply step_A; try exact Hinv; try done.
      + split; [by exists p|]. split; [done|]. cbn [vt_pc vt_n]. split; [done|]. split; [done|]. right. done.
      + intros b'. unfold held; cbn [vt_pc]. rewrite decide_True, decide_False by (simpl; lia). by rewrite Htodo.
      + intros; by left.
    - pose proof Hti as (_ & _ & Hsubs & Hals & Hcase). cbn [vt_pc vt_n vt_calls cur] in *.
      eapply (step_B _ _ _ _ _ _ _ _ tt _ _ [] subs); try exact Hinv; try done.
      + intros b. unfold tt, held; cbn [vt_pc]. rewrite decide_True by (simpl; lia). done.
      + intros b. unfold tt, taken; cbn [vt_pc]. by rewrite take_ge by lia.
      + intros b. cbn [vt_n]. split.
        * intros Hb. pose proof Hb as Hb'. rewrite Hsubs in Hb'. apply bufs_elem in Hb' as [Hb1 _].
          split; [by apply Hals|done].
        * intros (Hb & Hb1 & _). by apply Hals.
      + intros b. rewrite elem_of_nil. split; [done|]. intros (_ & _ & [?|[?|[_ ?]]]); done.
      + intros b _ Hb1 Hb2. apply Hals; [done|]. rewrite Hsubs. by apply bufs_elem.
    - pose proof Hti as ((p & Hp & Hd) & Hle & Hsubs & Hals & Hcase). cbn [vt_pc vt_n vt_calls cur] in *.
      assert (Hheld : acc = 0 /\ forall b, occ b (held (VThr (VSub c todo subs acc) n cs)) = occ b subs).
      { unfold held; cbn [vt_pc]. destruct H0 as [[-> Hne]|Hab].
        - destruct Hcase as [[Ht Ha]|(_ & -> & Hl)].
          + exfalso. apply (f_equal length) in Ht. rewrite drop_length in Ht. simpl in Ht. lia.
          + split; [done|]. intros b. rewrite decide_False by (simpl; lia). done.
        - apply Habort in Hab as ->. split; [done|]. intros b. case_decide as E; [|done].
          destruct Hcase as [[-> _]|(-> & _ & Hl)]; [done|]. simpl in E. lia. }
      destruct Hheld as [-> Hheld].
      eapply step_A; try exact Hinv; try done; try (intros; tauto).
      + split; [by exists p|]. split; [done|]. done.
      + intros b. rewrite Hheld. unfold held; cbn [vt_pc]. lia.
    - pose proof Hti as ((p & Hp & Hd) & Hle & Hsubs & Hals & Hcase). cbn [vt_pc vt_n vt_calls cur] in *.
      assert (Hheld : acc = 0 /\ forall b, occ b (held (VThr (VSub AsyncPush todo subs acc) n cs)) = occ b subs).
      { unfold held; cbn [vt_pc]. destruct H as [[-> Hne]|Hab].
        - destruct Hcase as [[Ht Ha]|(_ & -> & Hl)].
          + exfalso. apply (f_equal length) in Ht. rewrite drop_length in Ht. simpl in Ht. lia.
          + split; [done|]. intros b. rewrite decide_False by (simpl; lia). done.
        - apply Habort in Hab as ->. split; [done|]. intros b. case_decide as E; [|done].
          destruct Hcase as [[-> _]|(-> & _ & Hl)]; [done|]. simpl in E. lia. }
      destruct Hheld as [-> Hheld].
      eapply (step_B _ _ _ _ _ _ _ _ tt _ _ subs []); try exact Hinv; try done.
      + intros b. rewrite elem_of_nil. naive_solver.
      + intros b. cbn [vt_n]. split.
        * intros Hb. pose proof Hb as Hb'. rewrite Hsubs in Hb'. apply bufs_elem in Hb' as [Hb1 _].
          split; [by apply Hals|]. split; [done|right; by right].
        * intros (Hb & Hb1 & _). by apply Hals.
    - assert (Hone : occ b lv = 1 /\ b ∉ l).
      { specialize (Hlive b). specialize (Hal b). rewrite concat_mid, !occ_app in Hlive.
        unfold held in Hlive at 2; cbn [vt_pc] in Hlive. rewrite occ_cons, decide_True in Hlive by done.
        split; [lia|]. rewrite occ_elem. lia. }
      destruct Hone as [Hone Hnl].
      eapply step_A; try exact Hinv; try done; try (intros; tauto).
      + subst bd. simpl. unfold v_dead.  apply bool_decide_eq_false_2. rewrite occ_elem. lia.
      + intros b'. rewrite occ_free. unfold held; cbn [vt_pc]. rewrite occ_cons.
        case_decide; [|lia]. subst b'. lia.
      + intros b'. rewrite occ_free. case_decide; lia.
    - pose proof Hti as (_ & _ & Hnp). cbn [vt_pc vt_n vt_calls cur] in *.
      eapply (step_B _ _ _ _ _ _ _ _ tt _ _ [] []); try exact Hinv; try done.
      + intros b. rewrite elem_of_nil. naive_solver.
      + intros b. rewrite elem_of_nil. naive_solver.
  Qed.

  Lemma perform_ok lv f1 b c f2 ar us ca bd al rt ts ok :
    inv (VSt lv (f1 ++ (b, c) :: f2) ar us ca bd al rt ts) ->
    inv (VSt lv (f1 ++ f2) ((b, c, ok) :: ar) us ca (bd || v_dead b lv) al rt ts).
  Proof.
    intros (lost & okl & Hbd & Hlen & Hlive & Hal & Hsum & Hok1 & Hok & Hlost & Hcall & Hthr & Hr & Hlt & Hfull).
    cbn [b_bad b_threads b_live b_flight b_arrived b_user b_called b_alloced b_ret] in *.
    exists lost, okl. cbn [b_bad b_threads b_live b_flight b_arrived b_user b_called b_alloced b_ret].
    split.
    { subst bd. simpl. unfold v_dead. apply bool_decide_eq_false_2. rewrite occ_elem. specialize (Hlive b).
      rewrite fmap_app, fmap_cons, occ_app, occ_cons in Hlive. simpl in Hlive. rewrite decide_True in Hlive by done. lia. }
    split; [done|].
    split. { intros b'. specialize (Hlive b'). rewrite ?fmap_app, ?fmap_cons, ?occ_app, ?occ_cons in *. simpl in *. lia. }
    split; [done|].
    split. { intros b'. specialize (Hsum b'). rewrite ?fmap_app, ?fmap_cons, ?occ_app, ?occ_cons in *. simpl in *. lia. }
    split; [done|]. split; [done|]. split; [done|].
    split; [|done].
    intros b' c' [H|[ok' [H|H]%elem_of_cons]].
    - apply Hcall. left. apply elem_of_app in H as [H|H]; apply elem_of_app; [by left|right; by right].
    - injection H as -> -> ->. apply Hcall. left. apply elem_of_app. right. by left.
    - apply Hcall. right. by exists ok'.
  Qed.

  Lemma call_ok lv fl a1 b c ok a2 us ca bd al rt ts lv' us' bd' :
    v_callback b c ok lv us = (lv', us', bd') ->
    inv (VSt lv fl (a1 ++ (b, c, ok) :: a2) us ca bd al rt ts) ->
    inv (VSt lv' fl (a1 ++ a2) us' (ca ++ [(b, ok)]) (bd || bd') al rt ts).
  Proof.
    intros Hcb (lost & okl & Hbd & Hlen & Hlive & Hal & Hsum & Hok1 & Hok & Hlost & Hcall & Hthr & Hr & Hlt & Hfull).
    cbn [b_bad b_threads b_live b_flight b_arrived b_user b_called b_alloced b_ret] in *.
    assert (Hbc : call_of b = Some c). { apply Hcall. right. exists ok. apply elem_of_app. right. by left. }
    assert (Hone : occ b lv = 1 /\ b ∈ al).
    { specialize (Hlive b). specialize (Hal b). rewrite !fmap_app, !fmap_cons, occ_app, occ_cons in Hlive. simpl in Hlive.
      rewrite decide_True in Hlive by done. split; [lia|]. apply occ_elem. lia. }
    destruct Hone as [Hone Hbal].
    assert (Hsum' : forall b', occ b' fl.*1 + occ b' ((a1 ++ a2).*1).*1 + occ b' (ca ++ [(b, ok)]).*1 =
       occ b' okl + occ b' (concat (taken <$> ts))).
    { intros b'. specialize (Hsum b'). rewrite ?fmap_app, ?fmap_cons, ?occ_app, ?occ_cons in *. simpl in *.
      rewrite occ_nil. lia. }
    clear Hsum.
    assert (Hcall' : forall b' c', (b', c') ∈ fl \/ (exists ok', (b', c', ok') ∈ a1 ++ a2) -> call_of b' = Some c').
    { intros b' c' [H|[ok' H]]; apply Hcall; [by left|]. right. exists ok'.
      apply elem_of_app in H as [H|H]; apply elem_of_app; [by left|right; by right]. }
    assert (Hlost' : (ok = false -> forall l, c <> AsyncGets l) \/ ok = true ->
      forall b', b' ∈ lost <-> b' ∈ al /\ lost_reason (ca ++ [(b, ok)]) rt b').
    { intros Hc b'. rewrite Hlost. unfold lost_reason. rewrite elem_of_app, elem_of_list_singleton.
      split; intros [Ha Hrs]; (split; [done|]); (destruct Hrs as [[[l Hl] Hin]|Hrs]; [|by right]).
      - left. split; [by exists l|by left].
      - left. split; [by exists l|]. destruct Hin as [Hin|[= -> <-]]; [done|]. exfalso.
        destruct Hc as [Hc|?]; [|done]. apply (Hc eq_refl l). congruence. }
    assert (Hfree : forall b', occ b' (v_free b lv) <= occ b' al <= 1).
    { intros b'. specialize (Hal b'). rewrite occ_free. case_decide; lia. }
    assert (Hdead : v_dead b lv = false).
    { unfold v_dead. apply bool_decide_eq_false_2. rewrite occ_elem. lia. }
    assert (Hlive1 : forall b', b' <> b -> occ b' lv = occ b' (concat (held <$> ts)) + occ b' fl.*1 +
       occ b' (a1 ++ a2).*1.*1 + occ b' us + occ b' lost).
    { intros b' Hne. specialize (Hlive b'). rewrite ?fmap_app, ?fmap_cons, ?occ_app, ?occ_cons in *. simpl in *.
      rewrite decide_False in Hlive by done. lia. }
    assert (Hlive2 : occ b (concat (held <$> ts)) + occ b fl.*1 + occ b (a1 ++ a2).*1.*1 + occ b us + occ b lost = 0).
    { specialize (Hlive b). rewrite ?fmap_app, ?fmap_cons, ?occ_app, ?occ_cons in *. simpl in *.
      rewrite decide_True in Hlive by done. lia. }
    clear Hlive.
    assert (Hgive : ok = true -> inv (VSt lv fl (a1 ++ a2) (b :: us) (ca ++ [(b, ok)]) (bd || false) al rt ts)).
    { intros ->. exists lost, okl. cbn [b_bad b_threads b_live b_flight b_arrived b_user b_called b_alloced b_ret].
      split; [by subst bd|]. split; [done|]. split.
      { intros b'. rewrite occ_cons. destruct (decide (b' = b)) as [->|Hne]; [lia|]. specialize (Hlive1 b' Hne). lia. }
      split; [done|]. split; [done|]. split; [done|]. split; [done|]. split; [|done]. apply Hlost'. by right. }
    assert (Hdel : (ok = false -> forall l, c <> AsyncGets l) \/ ok = true ->
      inv (VSt (v_free b lv) fl (a1 ++ a2) us (ca ++ [(b, ok)]) (bd || v_dead b lv) al rt ts)).
    { intros Hc. exists lost, okl. cbn [b_bad b_threads b_live b_flight b_arrived b_user b_called b_alloced b_ret].
      split; [by rewrite Hdead; subst bd|]. split; [done|]. split.
      { intros b'. rewrite occ_free. destruct (decide (b' = b)) as [->|Hne]; [lia|]. specialize (Hlive1 b' Hne). lia. }
      split; [done|]. split; [done|]. split; [done|]. split; [done|]. split; [|done]. by apply Hlost'. }
    unfold v_callback in Hcb. destruct c as [x|l|].
    - destruct ok; injection Hcb as <- <- <-; [by apply Hgive|]. apply Hdel. left. done.
    - destruct ok; injection Hcb as <- <- <-; [by apply Hgive|].
      exists (b :: lost), okl. cbn [b_bad b_threads b_live b_flight b_arrived b_user b_called b_alloced b_ret].
      split; [by subst bd|]. split; [done|]. split.
      { intros b'. rewrite occ_cons. destruct (decide (b' = b)) as [->|Hne]; [lia|]. specialize (Hlive1 b' Hne). lia. }
      split; [done|]. split; [done|]. split; [done|]. split; [done|]. split; [|done].
      intros b'. rewrite elem_of_cons, Hlost. unfold lost_reason. rewrite elem_of_app, elem_of_list_singleton. split.
      + intros [->|[Ha Hrs]]; [split; [done|]; left; split; [by exists l|by right]|].
        split; [done|]. destruct Hrs as [[Hl Hin]|Hrs]; [|by right]. left. split; [done|by left].
      + intros [Ha [[Hl [Hin|[= -> ]]]|Hrs]]; [|by left|].
        * right. split; [done|]. left. done.
        * right. split; [done|]. by right.
    - injection Hcb as <- <- <-. apply Hdel. by left.
  Qed.

  Lemma delete_ok lv fl ar u1 b u2 ca bd al rt ts :
    inv (VSt lv fl ar (u1 ++ b :: u2) ca bd al rt ts) ->
    inv (VSt (v_free b lv) fl ar (u1 ++ u2) ca (bd || v_dead b lv) al rt ts).
  Proof.
    intros (lost & okl & Hbd & Hlen & Hlive & Hal & Hsum & Hok1 & Hok & Hlost & Hcall & Hthr & Hr & Hlt & Hfull).
    cbn [b_bad b_threads b_live b_flight b_arrived b_user b_called b_alloced b_ret] in *.
    exists lost, okl. cbn [b_bad b_threads b_live b_flight b_arrived b_user b_called b_alloced b_ret].
    assert (Hone : occ b lv = 1).
    { specialize (Hlive b). specialize (Hal b). rewrite occ_app, occ_cons, decide_True in Hlive by done. lia. }
    split. { subst bd. simpl. unfold v_dead. apply bool_decide_eq_false_2. rewrite occ_elem. lia. }
    split; [done|].
    split. { intros b'. specialize (Hlive b'). rewrite !occ_app, !occ_cons in *. rewrite occ_free.
      destruct (decide (b' = b)) as [->|Hne]; lia. }
    split. { intros b'. specialize (Hal b'). rewrite occ_free. case_decide; lia. }
    done.
  Qed.

  Theorem reach_inv s : rtc (vstep size may_refuse may_abort) (vinit progs) s -> inv s.
  Proof.
    intros H. eapply (rtc_ind_r (fun s => inv s)); [apply init_ok| |done].
    intros x y _ Hstep Hx. destruct Hstep.
    - by eapply thread_ok.
    - by eapply perform_ok.
    - by eapply call_ok.
    - by apply delete_ok.
  Qed.
End buffers.
