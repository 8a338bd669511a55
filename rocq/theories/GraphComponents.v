(** Proofs about [compute_connected_components]. *)
From stdpp Require Import prelude.
From Coq Require Import ZArith Lia.
From Verif Require Import Base GraphModel GraphSpec GraphProofs GraphSearch GraphFlow.

(** Two inner vertices joined by an edge. *)
Definition nbr (es : list edge) (a b : nat) : Prop :=
  exists i e, es !! i = Some e /\
    ((e_start e = VInner a /\ e_end e = VInner b) \/
     (e_start e = VInner b /\ e_end e = VInner a)).

Lemma nbr_sym es a b : nbr es a b -> nbr es b a.
Proof. intros (i & e & He & H). exists i, e. split; auto. tauto. Qed.

Definition lab (vs : list vertex) (i c : nat) : Prop := v_comp <$> vs !! i = Some c.

Lemma lab_fun vs i c c' : lab vs i c -> lab vs i c' -> c = c'.
Proof. unfold lab. congruence. Qed.

Lemma lab_alter vs j ci i c :
  (j < length vs)%nat ->
  lab (alter (set_comp ci) j vs) i c <-> (i = j /\ c = ci) \/ (i <> j /\ lab vs i c).
Proof.
  intros Hj. unfold lab. destruct (decide (i = j)) as [->|Hne].
  - rewrite list_lookup_alter. apply lookup_lt_is_Some in Hj as [x Hx]. rewrite Hx. simpl.
    split; [intros [= <-]; auto|]. intros [[_ ->]|[? _]]; done.
  - rewrite list_lookup_alter_ne by done. naive_solver.
Qed.

(** Vertices are only changed in their component. *)
Definition same_links (vs0 vs : list vertex) : Prop :=
  Forall2 (fun x y => v_in x = v_in y /\ v_out x = v_out y /\ v_parent x = v_parent y) vs0 vs.

Lemma same_links_refl vs : same_links vs vs.
Proof. apply Forall2_same_length_lookup_2; [done|]. intros. simplify_eq. done. Qed.

Lemma same_links_trans a b c : same_links a b -> same_links b c -> same_links a c.
Proof.
  intros H. revert c. induction H as [|x y l k (A1 & A2 & A3) H IH]; intros c H3;
    inversion H3 as [|? z ? c' (B1 & B2 & B3) H3']; subst; constructor.
  - split_and!; congruence.
  - by apply IH.
Qed.

Lemma same_links_alter vs j c : same_links vs (alter (set_comp c) j vs).
Proof.
  revert j. induction vs as [|x vs IH]; intros [|j]; simpl.
  - constructor.
  - constructor.
  - constructor; auto. apply same_links_refl.
  - constructor; auto. apply IH.
Qed.

Lemma same_links_len a b : same_links a b -> length b = length a.
Proof. intros H. symmetry. by eapply Forall2_length. Qed.

Section cc.
  Context (n : nat) (es : list edge) (ci : nat).
  Context (Hes : Forall (edge_ok n) es).
  Context (Hci : ci <> 0%nat).

  Lemma cc_scan_ok rec l :
    forall vs q,
    length vs = n ->
    (forall p, p ∈ l -> exists e, es !! ep_idx p = Some e) ->
    exists New vs', cc_scan es ci rec l vs q = Ok (vs', New ++ q) /\
      same_links vs vs' /\ NoDup New /\
      (forall j, j ∈ New -> lab vs j 0 /\
         exists p e, p ∈ l /\ es !! ep_idx p = Some e /\ edge_to e rec = VInner j) /\
      (forall i c, lab vs' i c <-> (i ∈ New /\ c = ci) \/ (i ∉ New /\ lab vs i c)) /\
      (forall p e j, p ∈ l -> es !! ep_idx p = Some e -> edge_to e rec = VInner j ->
         ~ lab vs' j 0).
  Proof.
    induction l as [|p l IH]; intros vs q Hlen Hl; simpl.
    - exists [], vs. split; [done|]. split; [apply same_links_refl|]. split; [constructor|].
      split; [intros j Hj; inversion Hj|]. split.
      + intros i c. split; [|intros [[H _]|[_ H]]; [inversion H|done]].
        intros H. right. split; [intros Hi; inversion Hi|done].
      + intros p e j Hp; inversion Hp.
    - destruct (Hl p) as [e He]; [left|].
      assert (Hl' : forall p, p ∈ l -> exists e, es !! ep_idx p = Some e)
        by (intros; apply Hl; by right).
      unfold vat at 1. rewrite He. simpl.
      pose proof (edge_to_bound n e rec (Forall_lookup_1 _ _ _ _ Hes He)) as Hb.
      assert (Hskip : (forall j, edge_to e rec = VInner j -> ~ lab vs j 0) ->
        exists New vs', cc_scan es ci rec l vs q = Ok (vs', New ++ q) /\
        same_links vs vs' /\ NoDup New /\
        (forall j, j ∈ New -> lab vs j 0 /\
           exists p' e, p' ∈ p :: l /\ es !! ep_idx p' = Some e /\ edge_to e rec = VInner j) /\
        (forall i c, lab vs' i c <-> (i ∈ New /\ c = ci) \/ (i ∉ New /\ lab vs i c)) /\
        (forall p' e j, p' ∈ p :: l -> es !! ep_idx p' = Some e -> edge_to e rec = VInner j ->
           ~ lab vs' j 0)).
      { intros Hnz. destruct (IH vs q Hlen Hl') as (New & vs' & E & A & N & H1 & H2 & H3).
        exists New, vs'. split_and!; auto.
        - intros j Hj. destruct (H1 j Hj) as (? & p' & e' & ? & ? & ?). split; auto.
          exists p', e'. split_and!; auto. by right.
        - intros p' e' j Hp' He' Hto. apply elem_of_cons in Hp' as [->|Hp']; [|eauto].
          rewrite He in He'. simplify_eq. intros Hz. apply H2 in Hz as [[_ ?]|[_ Hz]]; [done|].
          by eapply Hnz. }
      destruct (edge_to e rec) as [| |j] eqn:Hto.
      + apply Hskip. intros j [=].
      + apply Hskip. intros j [=].
      + assert (Hx : exists x, vs !! j = Some x) by (apply lookup_lt_is_Some; lia).
        destruct Hx as [x Hx]. unfold vat at 1. rewrite Hx. simpl.
        case_bool_decide as Hz.
        2:{ apply Hskip. intros k [= <-]. unfold lab. rewrite Hx. simpl. congruence. }
        destruct (IH (alter (set_comp ci) j vs) (j :: q)) as (New & vs' & E & A & N & H1 & H2 & H3).
        { by rewrite alter_length. } { done. }
        assert (HjN : j ∉ New).
        { intros HjN. destruct (H1 j HjN) as [H _]. apply lab_alter in H; [|lia]. naive_solver. }
        exists (New ++ [j]), vs'. rewrite E. rewrite <- app_assoc. split; [done|].
        split_and!.
        * eapply same_links_trans; [apply same_links_alter|exact A].
        * apply NoDup_app. split_and!; auto; [|apply NoDup_singleton].
          intros k Hk Hk2. apply elem_of_list_singleton in Hk2 as ->. done.
        * intros k Hk. apply elem_of_app in Hk as [Hk|Hk].
          -- destruct (H1 k Hk) as (Hlk & p' & e' & ? & ? & ?). split.
             ++ apply lab_alter in Hlk; [|lia]. naive_solver.
             ++ exists p', e'. split_and!; auto. by right.
          -- apply elem_of_list_singleton in Hk as ->. split.
             ++ unfold lab. rewrite Hx. simpl. congruence.
             ++ exists p, e. split_and!; auto. left.
        * intros i c. rewrite H2, lab_alter by lia. rewrite elem_of_app, elem_of_list_singleton.
          destruct (decide (i = j)) as [->|]; tauto.
        * intros p' e' k Hp' He' Hto'. apply elem_of_cons in Hp' as [->|Hp']; [|eauto].
          rewrite He in He'. simplify_eq. rewrite Hto in Hto'. simplify_eq.
          intros Hl0. apply H2 in Hl0 as [[? _]|[_ Hl0]]; [done|].
          apply lab_alter in Hl0; [|lia]. naive_solver.
  Qed.

  (** Labels other than [ci] and 0 are closed under adjacency. *)
  Definition closed_labs (vs : list vertex) : Prop :=
    forall a b c, nbr es a b -> lab vs a c -> c <> 0%nat -> c <> ci -> lab vs b c.

  Context (vs0 : list vertex) (Hlen0 : length vs0 = n).
  Context (Hadj : forall i x, vs0 !! i = Some x -> adj_ok es (VInner i) x).
  Context (Hclosed0 : closed_labs vs0).

  Lemma cc_loop_ok fuel :
    forall vs P q,
    same_links vs0 vs ->
    NoDup (P ++ q) ->
    (forall i, lab vs i ci <-> i ∈ P ++ q) ->
    (forall i c, c <> 0%nat -> c <> ci -> (lab vs i c <-> lab vs0 i c)) ->
    (forall a b, a ∈ P -> nbr es a b -> lab vs b ci) ->
    (n + 1 <= fuel + length P)%nat ->
    exists vs' P', cc_loop fuel es ci vs q (length P) = Ok (vs', length P') /\
      same_links vs0 vs' /\ NoDup P' /\ (forall i, i ∈ P ++ q -> i ∈ P') /\
      (forall i, lab vs' i ci <-> i ∈ P') /\
      (forall i c, c <> 0%nat -> c <> ci -> (lab vs' i c <-> lab vs0 i c)) /\
      (forall a b, a ∈ P' -> nbr es a b -> lab vs' b ci).
  Proof.
    induction fuel as [|fuel IH]; intros vs P q A N HL HO HP Hf.
    { exfalso. assert (length P <= length (seq 0 n))%nat.
      { apply submseteq_length. apply NoDup_submseteq; [by apply NoDup_app in N as (? & _ & _)|].
        intros j Hj. apply elem_of_seq.
        assert (Hl : lab vs j ci) by (apply HL, elem_of_app; auto).
        unfold lab in Hl. destruct (vs !! j) eqn:E; [|done]. apply lookup_lt_Some in E.
        rewrite (same_links_len _ _ A) in E. lia. }
      rewrite seq_length in *. lia. }
    simpl. destruct q as [|v q].
    { exists vs, P. rewrite app_nil_r in *. split_and!; auto. }
    assert (Hlv : lab vs v ci) by (apply HL, elem_of_app; right; left).
    assert (Hx : exists x, vs !! v = Some x).
    { unfold lab in Hlv. destruct (vs !! v); eauto. done. }
    destruct Hx as [x Hx]. unfold vat at 1. rewrite Hx. simpl.
    destruct (Forall2_lookup_r _ _ _ _ _ A Hx) as (x0 & Hx0 & A1 & A2 & A3).
    destruct (Hadj _ _ Hx0) as [Hin Hout]. rewrite A1 in Hin. rewrite A2 in Hout.
    destruct (cc_scan_ok false (v_out x) vs q) as (New1 & vs1 & E1 & L1 & N1 & F1 & Lab1 & C1).
    { rewrite (same_links_len _ _ A). done. }
    { intros p Hp. rewrite Hout in Hp. apply elem_of_idxs in Hp as (i & e & He & _ & ->). eauto. }
    rewrite E1. simpl.
    destruct (cc_scan_ok true (v_in x) vs1 (New1 ++ q)) as (New2 & vs2 & E2 & L2 & N2 & F2 & Lab2 & C2).
    { rewrite (same_links_len _ _ L1), (same_links_len _ _ A). done. }
    { intros p Hp. rewrite Hin in Hp. apply elem_of_idxs in Hp as (i & e & He & _ & ->). eauto. }
    rewrite E2. simpl.
    assert (Hv2 : forall i, lab vs2 i ci <-> i ∈ New2 \/ i ∈ New1 \/ lab vs i ci).
    { intros i. rewrite Lab2, Lab1. destruct (decide (i ∈ New2)), (decide (i ∈ New1)); tauto. }
    assert (HN1 : forall i, i ∈ New1 -> i ∉ P ++ v :: q).
    { intros i Hi Hi2. apply HL in Hi2. destruct (F1 i Hi) as [H0 _]. apply Hci. eapply lab_fun; eauto. }
    assert (HN2 : forall i, i ∈ New2 -> i ∉ New1 /\ i ∉ P ++ v :: q).
    { intros i Hi. destruct (F2 i Hi) as [H0 _]. apply Lab1 in H0 as [[_ H0]|[H0 H1]]; [done|].
      split; [done|]. intros Hi2. apply HL in Hi2. apply Hci. eapply lab_fun; eauto. }
    destruct (IH vs2 (P ++ [v]) (New2 ++ New1 ++ q)) as (vs' & P' & E & A' & N' & I' & HL' & HO' & HP').
    - eapply same_links_trans; [exact A|]. eapply same_links_trans; [exact L1|exact L2].
    - rewrite <- app_assoc. simpl.
      assert (Hperm : P ++ v :: New2 ++ New1 ++ q ≡ₚ New2 ++ New1 ++ P ++ v :: q) by solve_Permutation.
      rewrite Hperm. apply NoDup_app. split_and!; auto.
      + intros i Hi Hi2. destruct (HN2 i Hi) as [X Y]. apply elem_of_app in Hi2 as [Hi2|Hi2]; auto.
      + apply NoDup_app. split_and!; auto.
    - intros i. rewrite Hv2, HL. rewrite !elem_of_app, !elem_of_cons, elem_of_nil. tauto.
    - intros i c Hc0 Hcc. rewrite Lab2, Lab1, <- HO by done.
      destruct (decide (i ∈ New2)) as [H2|H2].
      { destruct (F2 i H2) as [H0 _]. apply Lab1 in H0 as [[_ H0]|[_ H0]]; [done|].
        split; [naive_solver|]. intros H. exfalso. apply Hc0. eapply lab_fun; eauto. }
      destruct (decide (i ∈ New1)) as [H1|H1].
      { destruct (F1 i H1) as [H0 _].
        split; [naive_solver|]. intros H. exfalso. apply Hc0. eapply lab_fun; eauto. }
      naive_solver.
    - intros a b Ha Hab. apply elem_of_app in Ha as [Ha|Ha].
      + apply Hv2. right; right. eauto.
      + apply elem_of_list_singleton in Ha as ->.
        assert (Hnz : ~ lab vs2 b 0).
        { destruct Hab as (i & e & He & [[Hs Ht]|[Hs Ht]]).
          - intros H0. apply (C1 (EP false i) e b); auto.
            + rewrite Hout. apply elem_of_idxs. exists i, e. split_and!; auto.
              unfold starts. by apply bool_decide_eq_true.
            + apply Lab2 in H0 as [[_ ?]|[_ ?]]; [done|]. done.
          - apply (C2 (EP false i) e b); auto.
            rewrite Hin. apply elem_of_idxs. exists i, e. split_and!; auto.
            unfold ends. by apply bool_decide_eq_true. }
        assert (Hb : (b < n)%nat).
        { destruct Hab as (i & e & He & H).
          pose proof (Forall_lookup_1 _ _ _ _ Hes He) as (_ & _ & _ & Hs & Ht & _).
          destruct H as [[H1 H2]|[H1 H2]].
          - rewrite H2 in Ht. destruct Ht as [?|(k & [= ->] & ?)]; done.
          - rewrite H1 in Hs. destruct Hs as [?|(k & [= ->] & ?)]; done. }
        assert (Hlb : exists c, lab vs2 b c).
        { unfold lab. assert (b < length vs2)%nat as Hb2.
          { rewrite (same_links_len _ _ L2), (same_links_len _ _ L1), (same_links_len _ _ A). lia. }
          apply lookup_lt_is_Some in Hb2 as [y ->]. simpl. eauto. }
        destruct Hlb as [c Hc]. destruct (decide (c = ci)) as [->|Hne]; [done|].
        exfalso. assert (c <> 0%nat) by (intros ->; done).
        assert (Hc0 : lab vs0 b c).
        { apply Lab2 in Hc as [[_ ?]|[_ Hc]]; [done|]. apply Lab1 in Hc as [[_ ?]|[_ Hc]]; [done|].
          by apply HO in Hc. }
        assert (Hcv : lab vs0 v c) by (eapply Hclosed0; [by apply nbr_sym| | |]; eauto).
        apply HO in Hcv; auto. apply Hne. eapply lab_fun; eauto.
    - rewrite app_length. simpl. lia.
    - rewrite app_length in E. simpl in E. replace (length P + 1)%nat with (S (length P)) in E by lia.
      exists vs', P'. split; [exact E|]. split_and!; auto.
      intros i Hi. apply I'. rewrite !elem_of_app in *. rewrite !elem_of_cons in *. rewrite elem_of_nil. tauto.
  Qed.
End cc.

(** Invariant of the outer loop after the vertices below [k]. *)
Record cc_inv (es : list edge) (k : nat) (vs : list vertex) (ci : nat) : Prop := CcInv {
  ci_closed : forall a b c, nbr es a b -> lab vs a c -> c <> 0%nat -> lab vs b c;
  ci_single : forall a b, (a < k)%nat -> nbr es a b -> lab vs a 0 -> b = a;
  ci_bound : forall i c, lab vs i c -> (c < ci)%nat;
  ci_pos : ci <> 0%nat
}.

Lemma cc_outer_ok n es vs0 m :
  Forall (edge_ok n) es -> length vs0 = n ->
  (forall i x, vs0 !! i = Some x -> adj_ok es (VInner i) x) ->
  forall k vs ci, (k + m = n)%nat -> same_links vs0 vs -> cc_inv es k vs ci ->
  exists vs' ci', cc_outer es (seq k m) vs ci = Ok (vs', ci') /\
    same_links vs0 vs' /\ cc_inv es n vs' ci'.
Proof.
  intros Hes Hlen Hadj. induction m as [|m IH]; intros k vs ci Hk A I; simpl.
  { exists vs, ci. split_and!; auto. replace n with k by lia. done. }
  assert (Hx : exists x, vs !! k = Some x).
  { apply lookup_lt_is_Some. rewrite (same_links_len _ _ A). lia. }
  destruct Hx as [x Hx]. unfold vat at 1. rewrite Hx. simpl.
  assert (Hlk : lab vs k (v_comp x)) by (unfold lab; by rewrite Hx).
  case_bool_decide as Hz.
  - apply IH; [lia|done|]. destruct I as [I1 I2 I3 I4]. split; auto.
    intros a b Ha Hab H0. destruct (decide (a = k)) as [->|Hne]; [|apply I2; auto; lia].
    exfalso. apply Hz. eapply lab_fun; eauto.
  - assert (v_comp x = 0%nat) as Hx0 by lia.
    set (vs1 := alter (set_comp ci) k vs).
    assert (Hkl : (k < length vs)%nat) by (rewrite (same_links_len _ _ A); lia).
    assert (A1 : same_links vs vs1) by apply same_links_alter.
    assert (Hcl : closed_labs es ci vs1).
    { intros a b c Hab Ha Hc0 Hcc. apply lab_alter in Ha as [[_ ?]|[Hak Ha]]; [done| |done].
      apply lab_alter; [done|]. right. pose proof (ci_closed _ _ _ _ I a b c Hab Ha Hc0) as Hb.
      split; [|done]. intros ->. apply Hc0. eapply lab_fun; [exact Hb|]. by rewrite <- Hx0. }
    destruct (cc_loop_ok n es ci Hes (ci_pos _ _ _ _ I) vs1) with (fuel := (length vs + 2)%nat)
      (vs := vs1) (P := @nil nat) (q := [k]) as (vs2 & P & E & A2 & N & HI & HL & HO & HP).
    + by rewrite (same_links_len _ _ A1), (same_links_len _ _ A).
    + intros i y Hy. destruct (Forall2_lookup_r _ _ _ _ _ A1 Hy) as (z & Hz' & B1 & B2 & _).
      destruct (Forall2_lookup_r _ _ _ _ _ A Hz') as (w & Hw & D1 & D2 & _).
      destruct (Hadj _ _ Hw). split; congruence.
    + done.
    + apply same_links_refl.
    + simpl. apply NoDup_singleton.
    + intros i. unfold vs1. rewrite lab_alter by done. simpl. rewrite elem_of_list_singleton.
      split; [|auto]. intros [[? _]|[_ H]]; [done|]. apply (ci_bound _ _ _ _ I) in H. lia.
    + done.
    + intros a b Ha. inversion Ha.
    + simpl. rewrite (same_links_len _ _ A). lia.
    + simpl in E. rewrite E. simpl.
      assert (Hk' : k ∈ P) by (apply HI; left).
      assert (A02 : same_links vs0 vs2).
      { eapply same_links_trans; [exact A|]. by eapply same_links_trans. }
      assert (Hkl2 : (k < length vs2)%nat) by (rewrite (same_links_len _ _ A02); lia).
      assert (Hother : forall i c, c <> 0%nat -> c <> ci -> lab vs2 i c <-> lab vs i c).
      { intros i c H0 Hc. rewrite HO by done. unfold vs1. rewrite lab_alter by done.
        split; [naive_solver|]. intros H. right. split; [|done]. intros ->. apply H0.
        eapply lab_fun; [exact H|]. by rewrite <- Hx0. }
      assert (Hzero : forall i, lab vs2 i 0 -> lab vs i 0).
      { intros i H0. assert (Hi : exists c, lab vs i c).
        { unfold lab in *. destruct (vs2 !! i) eqn:E2; [|done]. apply lookup_lt_Some in E2.
          rewrite (same_links_len _ _ A02), <- (same_links_len _ _ A) in E2.
          apply lookup_lt_is_Some in E2 as [y ->]. simpl. eauto. }
        destruct Hi as [c Hc]. destruct (decide (c = 0%nat)) as [->|Hne]; [done|].
        exfalso. pose proof (ci_bound _ _ _ _ I i c Hc).
        apply Hne. eapply lab_fun; [|exact H0]. apply Hother; auto. lia. }
      case_bool_decide as Hsz.
      * assert (P = [k]) as ->.
        { destruct P as [|y [|]]; simpl in Hsz; try lia. apply elem_of_list_singleton in Hk' as ->. done. }
        apply IH; [lia| |].
        { eapply same_links_trans; [exact A02|apply same_links_alter]. }
        split.
        -- intros a b c Hab Ha Hc0. apply lab_alter in Ha as [[_ ?]|[Hak Ha]]; [done| |done].
           apply lab_alter; [done|]. right.
           assert (c <> ci).
           { intros ->. apply HL in Ha. apply elem_of_list_singleton in Ha. done. }
           assert (Hb : lab vs2 b c).
           { apply Hother; auto. eapply ci_closed; eauto. by apply Hother. }
           split; [|done]. intros ->. assert (lab vs2 k ci) by (apply HL; left).
           assert (c = ci) by (eapply lab_fun; eauto). done.
        -- intros a b Ha Hab H0. apply lab_alter in H0; [|done].
           destruct (decide (a = k)) as [->|Hne].
           ++ assert (Hb : lab vs2 b ci) by (eapply HP; [|exact Hab]; left).
              apply HL in Hb. by apply elem_of_list_singleton in Hb.
           ++ destruct H0 as [[? _]|[_ H0]]; [done|].
              eapply ci_single; [exact I| |exact Hab|by apply Hzero]. lia.
        -- intros i c H. apply lab_alter in H; [|done]. destruct H as [[_ ->]|[Hne H]].
           { pose proof (ci_pos _ _ _ _ I). lia. }
           destruct (decide (c = 0%nat)) as [->|Hc0]; [pose proof (ci_pos _ _ _ _ I); lia|].
           destruct (decide (c = ci)) as [->|Hcc].
           { apply HL in H. apply elem_of_list_singleton in H. done. }
           apply Hother in H; auto. by eapply ci_bound.
        -- apply I.
      * apply IH; [lia|done|]. split.
        -- intros a b c Hab Ha Hc0. destruct (decide (c = ci)) as [->|Hcc].
           ++ eapply HP; [|exact Hab]. by apply HL.
           ++ apply Hother; auto. eapply ci_closed; eauto. by apply Hother.
        -- intros a b Ha Hab H0. destruct (decide (a = k)) as [->|Hne].
           ++ exfalso. assert (lab vs2 k ci) by by apply HL.
              apply (ci_pos _ _ _ _ I). eapply lab_fun; eauto.
           ++ eapply ci_single; [exact I| |exact Hab|by apply Hzero]. lia.
        -- intros i c H. destruct (decide (c = 0%nat)) as [->|Hc0]; [lia|].
           destruct (decide (c = ci)) as [->|Hcc]; [lia|].
           apply Hother in H; auto. pose proof (ci_bound _ _ _ _ I i c H). lia.
        -- lia.
Qed.

(** What the parallel computation needs from the labelling. *)
Definition comp_ok (g : graph) : Prop :=
  (forall a b c, nbr (g_edges g) a b -> lab (g_verts g) a c -> lab (g_verts g) b c) /\
  (forall i c, lab (g_verts g) i c -> (c <= g_ncomp g)%nat).

Lemma components_ok g :
  wf g -> Forall (fun v => v_comp v = 0%nat) (g_verts g) ->
  exists g', compute_connected_components g = Ok g' /\ wf g' /\ comp_ok g' /\
    g_edges g' = g_edges g /\ g_state g' = g_state g /\ g_size g' = g_size g.
Proof.
  intros W H0. unfold compute_connected_components.
  destruct (cc_outer_ok (g_size g) (g_edges g) (g_verts g) (length (g_verts g))
    (wf_edges _ W) (wf_len _ W) (wf_verts _ W) 0 (g_verts g) 1) as (vs & ci & E & A & I).
  { simpl. apply W. }
  { apply same_links_refl. }
  { assert (HZ : forall i c, lab (g_verts g) i c -> c = 0%nat).
    { intros i c Hc. unfold lab in Hc. destruct (g_verts g !! i) eqn:Ei; [|done]. simpl in Hc.
      simplify_eq. by eapply (Forall_lookup_1 _ _ _ _ H0). }
    split.
    - intros a b c _ Ha Hc. exfalso. eauto.
    - intros; lia.
    - intros i c Hc. rewrite (HZ _ _ Hc). lia.
    - lia. }
  rewrite E. simpl. eexists; split; [reflexivity|]. split_and!; simpl; auto.
  - split; simpl; try apply W.
    + rewrite (same_links_len _ _ A). apply W.
    + intros i x Hx. destruct (Forall2_lookup_r _ _ _ _ _ A Hx) as (y & Hy & B1 & B2 & _).
      destruct (wf_verts _ W _ _ Hy). split; congruence.
  - split; simpl.
    + intros a b c Hab Ha. destruct (decide (c = 0%nat)) as [->|Hc].
      * assert (b = a) as ->; [|done]. eapply ci_single; eauto.
        unfold lab in Ha. destruct (vs !! a) eqn:Ea; [|done]. apply lookup_lt_Some in Ea.
        rewrite (same_links_len _ _ A), (wf_len _ W) in Ea. done.
      * eapply ci_closed; eauto.
    + intros i c Hc. pose proof (ci_bound _ _ _ _ I i c Hc). lia.
Qed.
