(** Servers of Tethys and Pluto that choose the searches as they go (C123). *)
From stdpp Require Import prelude gmap.
From Coq Require Import ZArith NArith Lia.
From Verif Require Import Base EncModel StoreModel KvModel SchemeModel SchemeSpec PlutoModel PlutoSpec HideProofs HideTSpec AdaptSpec
  Props_Scheme Props_Pluto Props_HideT.
Local Open Scope nat_scope.

(** Searches chosen from equal views are the same. *)
Lemma searches_same {V} (v v' : list bytes -> V) choose n : forall ws,
  (forall m, m <= n -> v (searches v choose m ws) = v' (searches v choose m ws)) ->
  searches v choose n ws = searches v' choose n ws.
Proof.
  induction n as [|n IH]; intros ws H; [done|]. cbn [searches].
  pose proof (H 0 ltac:(lia)) as E. cbn [searches] in E. rewrite <- E.
  destruct (choose (v ws)) as [w|] eqn:Ec; [|done]. apply IH. intros m Hm.
  specialize (H (S m) ltac:(lia)). cbn [searches] in H. by rewrite Ec in H.
Qed.
Lemma searches_more {V} (v : list bytes -> V) choose : forall n m ws w, m <= n ->
  w ∈ searches v choose m ws -> w ∈ searches v choose n ws.
Proof.
  assert (Hin : forall n ws w, w ∈ ws -> w ∈ searches v choose n ws).
  { induction n as [|n IH]; intros ws w H; [done|]. cbn. destruct (choose (v ws)); [|done]. apply IH, elem_of_app. by left. }
  induction n as [|n IH]; intros m ws w Hm H; [by replace m with 0 in H by lia|]. destruct m as [|m].
  - by apply Hin.
  - cbn in *. destruct (choose (v ws)); [|done]. by apply (IH m); [lia|].
Qed.

(** C123 (Tethys): the server chooses the keywords to search for, from the table and from the
    requests and the answers so far.  It sees the same with two databases in which these
    keywords have the same numbers of blocks, and so it chooses the same keywords. *)
Theorem C123_tethys :
  forall fuel fuel' sc db db' choose n,
    encrypts sc -> (Z.of_nat (sp_n (sc_store sc)) < 2 ^ 64)%Z ->
    (forall x, Forall (fun b => (b < 256)%N) (sc_hash sc x)) ->
    NoDup db.*1 -> NoDup db'.*1 ->
    t_succeeds fuel sc db -> t_succeeds fuel' sc db' ->
    let asked s := searches (t_view fuel (with_pad sc s) db) choose n [] in
    let asked' s := searches (t_view fuel' (with_pad sc s) db') choose n [] in
    (forall s w, pad_ok (kp_page (sp_enc (sc_store sc))) s -> w ∈ asked s -> t_blocks sc db w = t_blocks sc db' w) ->
    exists there back, pad_bijection (kp_page (sp_enc (sc_store sc))) there back /\
      (forall s nc, (forall i, i < sp_n (sc_store sc) -> nc <> nonce_of i) -> there s nc = s nc) /\
      forall s, pad_ok (kp_page (sp_enc (sc_store sc))) s ->
        asked' (there s) = asked s /\
        exists v, t_view fuel (with_pad sc s) db (asked s) = Ok v /\
          t_view fuel' (with_pad sc (there s)) db' (asked' (there s)) = Ok v.
Proof.
  intros fuel fuel' sc0 db db' choose n He. revert He. destruct sc0 as [[enc m hash c] prf h]. intros (ks & k & Hc) Hn Hh Hd Hd' Hs Hs'.
  cbn in Hc. subst c. set (sc := Scheme _ _ _) in *. intros asked asked' Hb.
  destruct (t_view_eq fuel enc m hash ks k prf h db Hh Hd Hs) as (pages & Hp & Hl & HV).
  destruct (t_view_eq fuel' enc m hash ks k prf h db' Hh Hd' Hs') as (pages' & Hp' & Hl' & HV').
  exists (t_there pages pages'), (t_back pages pages'). split; [by eapply t_bijection|]. split; [intros s nc Hnc; by eapply t_there_out|].
  intros s Hok.
  assert (HS : forall ws, (forall w, w ∈ ws -> t_blocks sc db w = t_blocks sc db' w) ->
    exists v, t_view fuel (with_pad sc s) db ws = Ok v /\ t_view fuel' (with_pad sc (t_there pages pages' s)) db' ws = Ok v).
  { intros ws Hw0. eexists. unfold with_pad, sc. cbn [sc_store sp_enc sp_n sp_hash sp_cipher sc_prf sc_hash]. rewrite HV, HV'. split; [done|].
    rewrite <- (masked_same enc m pages pages' Hn Hp Hp' Hl Hl' ks k s Hok). f_equal. f_equal. apply list_fmap_ext. intros i w Hw.
    assert (t_request sc db w = t_request sc db' w) as E; [|unfold sc in E; by rewrite E].
    unfold t_request. rewrite Hw0; [done|by eapply elem_of_list_lookup_2]. }
  assert (Ea : asked s = asked' (t_there pages pages' s)).
  { apply searches_same. intros j Hj. destruct (HS (searches (t_view fuel (with_pad sc s) db) choose j [])) as (v & -> & ->); [|done].
    intros w Hw. apply (Hb s); [done|]. by apply (searches_more _ _ n j). }
  split; [done|]. rewrite <- Ea. apply HS. intros w. by apply Hb.
Qed.
Print Assumptions C123_tethys.

(** C123 (Pluto): the same, for databases with the same complete blocks. *)
Theorem C123_pluto :
  forall fuel pp rand n_elts db db' choose n,
    encrypts (pp_sc pp) -> (Z.of_nat (sp_n (sc_store (pp_sc pp))) < 2 ^ 64)%Z ->
    (forall x, Forall (fun b => (b < 256)%N) (sc_hash (pp_sc pp) x)) -> 0 < p_len pp ->
    p_succeeds fuel pp rand n_elts db -> p_succeeds fuel pp rand n_elts db' ->
    full_part (p_len pp) db = full_part (p_len pp) db' ->
    let asked d s := searches (p_view fuel (p_with_pad pp s) rand n_elts d) choose n [] in
    exists there back, pad_bijection (kp_page (pp_enc pp)) there back /\
      (forall s nc, (forall i, i < sp_n (sc_store (pp_sc pp)) -> nc <> nonce_of i) -> there s nc = s nc) /\
      forall s, pad_ok (kp_page (pp_enc pp)) s ->
        asked db' (there s) = asked db s /\
        exists v, p_view fuel (p_with_pad pp s) rand n_elts db (asked db s) = Ok v /\
          p_view fuel (p_with_pad pp (there s)) rand n_elts db' (asked db' (there s)) = Ok v.
Proof.
  intros fuel pp0 rand n_elts db db' choose n He Hn Hh HL Hs Hs' Hf.
  assert (exists there back, pad_bijection (kp_page (pp_enc pp0)) there back /\
      (forall s nc, (forall i, i < sp_n (sc_store (pp_sc pp0)) -> nc <> nonce_of i) -> there s nc = s nc) /\
      forall s ws, pad_ok (kp_page (pp_enc pp0)) s ->
        exists v, p_view fuel (p_with_pad pp0 s) rand n_elts db ws = Ok v /\
          p_view fuel (p_with_pad pp0 (there s)) rand n_elts db' ws = Ok v) as (there & back & H1 & H2 & H3).
  { revert He Hn Hh HL Hs Hs' Hf. destruct pp0 as [[[enc m hash c] prf h] ht]. intros (ks & k & Hc) Hn Hh HL Hs Hs' Hf. cbn in Hc. subst c.
    destruct (p_view_eq fuel enc m hash ks k prf h ht rand n_elts db Hh Hs) as (b0 & hf & t & pages & N1 & Hp & Hl & O1 & R1 & C1 & HV).
    destruct (p_view_eq fuel enc m hash ks k prf h ht rand n_elts db' Hh Hs') as (b0' & hf' & t' & pages' & N2 & Hp' & Hl' & O2 & R2 & C2 & HV').
    rewrite N1 in N2. injection N2 as <-. unfold pmk in *. set (pp := PPar _ _) in *.
    assert (ht_of (pluto_insert_db pp b0 db).1 = ht_of (pluto_insert_db pp b0 db').1) as Eh.
    { rewrite (pluto_insert_db_ht _ HL db b0 b0 eq_refl); [|rewrite R1; by apply Forall_replicate].
      rewrite (pluto_insert_db_ht _ HL db' b0 b0 eq_refl); [|rewrite R2; by apply Forall_replicate].
      by rewrite Hf. }
    injection Eh as Eh1 Eh2. cbn zeta in C1, C2. rewrite Eh1, Eh2 in C1. destruct C1 as [_ C1], C2 as [_ C2].
    rewrite C1 in C2. injection C2 as <-. rewrite O1 in O2. injection O2 as <-.
    exists (t_there pages pages'), (t_back pages pages'). split; [by eapply t_bijection|]. split; [intros s nc Hnc; by eapply t_there_out|].
    intros s ws Hok. eexists. unfold p_with_pad, with_pad.
    assert (forall s, PPar (Scheme (SPar (sp_enc (sc_store (pp_sc pp))) (sp_n (sc_store (pp_sc pp))) (sp_hash (sc_store (pp_sc pp)))
      match sp_cipher (sc_store (pp_sc pp)) with
      | Plain => Plain
      | Encrypted ks k => Encrypted (fun k' nc len => if decide (k' = k) then take len (s nc) else ks k' nc len) k
      end) (sc_prf (pp_sc pp)) (sc_hash (pp_sc pp))) (pp_ht pp) =
      PPar (Scheme (SPar enc m hash (Encrypted (fun k' nc len => if decide (k' = k) then take len (s nc) else ks k' nc len) k)) prf h) ht) as Epp
      by reflexivity.
    rewrite !Epp, HV, HV'. split; [done|].
    rewrite <- (masked_same enc m pages pages' Hn Hp Hp' Hl Hl' ks k s Hok). done. }
  intros asked. exists there, back. split; [done|]. split; [done|]. intros s Hok.
  assert (Ea : asked db s = asked db' (there s)).
  { apply searches_same. intros j _. by destruct (H3 s (searches (p_view fuel (p_with_pad pp0 s) rand n_elts db) choose j []) Hok) as (v & -> & ->). }
  split; [done|]. rewrite <- Ea. by apply H3.
Qed.
Print Assumptions C123_pluto.

(** A server that searches for one keyword or another, according to the first byte of the table. *)
Definition ex_t_choose {A} (v : res (list bytes * list A)) : option bytes :=
  match v with
  | Ok ((b :: _) :: _, []) => Some (if decide (b = 3%N) then [1%N] else [5%N])
  | _ => None
  end.
Lemma ex_t_chosen A (v : res (list bytes * list A)) w : ex_t_choose v = Some w -> w ∈ [[1%N]; [5%N]].
Proof.
  intros E. destruct v as [[[|[|b t] u] [|y l]]| | |]; try discriminate E. cbn in E.
  case_decide; injection E as <-; [by left|by right; left].
Qed.
Lemma ex_t_searched A (v : list bytes -> res (list bytes * list A)) n : forall ws,
  Forall (fun y => y ∈ [[1%N]; [5%N]]) ws -> Forall (fun y => y ∈ [[1%N]; [5%N]]) (searches v ex_t_choose n ws).
Proof.
  induction n as [|n IH]; intros ws Hws; cbn [searches]; [done|].
  destruct (ex_t_choose (v ws)) as [w|] eqn:E; [|done].
  apply IH, Forall_app. split; [done|]. apply Forall_singleton. by eapply ex_t_chosen.
Qed.
Example C123_tethys_ex :
  (forall s w, w ∈ searches (t_view 1000 (with_pad (ex_bsc 4) s) ex_hide_db) ex_t_choose 3 [] ->
     t_blocks (ex_bsc 4) ex_hide_db w = t_blocks (ex_bsc 4) ex_hide_db' w) /\
  exists s s', pad_ok (kp_page (sp_enc (sc_store (ex_bsc 4)))) s /\ pad_ok (kp_page (sp_enc (sc_store (ex_bsc 4)))) s' /\
    searches (t_view 1000 (with_pad (ex_bsc 4) s) ex_hide_db) ex_t_choose 3 [] <>
    searches (t_view 1000 (with_pad (ex_bsc 4) s') ex_hide_db) ex_t_choose 3 [].
Proof.
  destruct C78_ex as (_ & _ & _ & _ & _ & _ & Hb & _). split.
  - intros s w Hw. apply Hb. pose proof (ex_t_searched _ (t_view 1000 (with_pad (ex_bsc 4) s) ex_hide_db) 3 [] ltac:(by apply Forall_nil)) as HF.
    rewrite Forall_forall in HF. exact (HF w Hw).
  - exists (fun _ => replicate (kp_page (sp_enc (sc_store (ex_bsc 4)))) 0%N), (fun _ => replicate (kp_page (sp_enc (sc_store (ex_bsc 4)))) 1%N).
    split; [|split].
    + intros nc. split; [by rewrite replicate_length|by apply Forall_replicate].
    + intros nc. split; [by rewrite replicate_length|by apply Forall_replicate].
    + intros E. vm_compute in E. discriminate E.
Qed.
