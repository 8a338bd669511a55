(** Games of a server that chooses the operations: if each pair of histories has a bijection of
    the random functions that keeps what is seen, so do the games. *)
From stdpp Require Import prelude.
From Coq Require Import Lia.
From Verif Require Import AdaptSpec.
Local Open Scope nat_scope.

Section games.
  Context {O Q V A F : Type}.
  Variables (view : F -> list O -> list V) (ask : F -> Q -> A).
  Variables (ok : F -> Prop) (same : F -> F -> Prop).
  Variables (T B : list O -> list O -> F -> F).
  Variable valid : list (move O Q) -> Prop.
  Hypothesis view_take : forall f h1 h2, take (length h1) (view f (h1 ++ h2)) = view f h1.
  Hypothesis view_ext : forall f g h, same f g -> view f h = view g h.
  Hypothesis ask_ext : forall f g q, same f g -> ask f q = ask g q.
  Hypothesis T_ok : forall ms f, valid ms -> ok f ->
    ok (T (done_by false ms) (done_by true ms) f) /\ ok (B (done_by false ms) (done_by true ms) f).
  Hypothesis T_inv : forall ms f, valid ms -> ok f ->
    same (B (done_by false ms) (done_by true ms) (T (done_by false ms) (done_by true ms) f)) f /\
    same (T (done_by false ms) (done_by true ms) (B (done_by false ms) (done_by true ms) f)) f.
  Hypothesis T_view : forall ms f, valid ms -> ok f ->
    view f (done_by false ms) = view (T (done_by false ms) (done_by true ms) f) (done_by true ms).
  Hypothesis T_ask : forall ms f q, valid ms -> ok f -> Ask q ∈ ms ->
    ask (T (done_by false ms) (done_by true ms) f) q = ask f q.

  Notation script := (transcript view ask).
  Notation gm := (game view ask).

  Lemma done_by_app b (l1 l2 : list (move O Q)) : done_by b (l1 ++ l2) = done_by b l1 ++ done_by b l2.
  Proof. apply omap_app. Qed.
  Lemma done_by_length (ms : list (move O Q)) : length (done_by false ms) = length (done_by true ms).
  Proof. induction ms as [|[o o'|q] ms IH]; cbn; [done|by f_equal|done]. Qed.
  Lemma sights_take f (l2 : list (move O Q)) : forall (l1 : list (move O Q)) (vs : list V),
    take (length l1) (sights ask f (l1 ++ l2) vs) = sights ask f l1 (take (length (done_by false l1)) vs).
  Proof.
    induction l1 as [|[o o'|q] l1 IH]; intros vs; cbn [app sights length take done_by omap list_omap]; [done| |].
    - destruct vs as [|v vs]; cbn [take length]; [done|]. f_equal. apply IH.
    - f_equal. apply IH.
  Qed.
  Lemma script_take b f l1 l2 : take (length l1) (script b f (l1 ++ l2)) = script b f l1.
  Proof.
    unfold transcript. rewrite sights_take, done_by_app.
    assert (length (done_by false l1) = length (done_by b l1)) as -> by (destruct b; [apply done_by_length|done]).
    by rewrite view_take.
  Qed.
  Lemma script_ext b f g ms : same f g -> script b f ms = script b g ms.
  Proof.
    intros E. unfold transcript. rewrite (view_ext f g _ E). generalize (view g (done_by b ms)).
    induction ms as [|[o o'|q] ms IH]; intros vs; cbn [sights]; [done| |].
    - destruct vs; [done|]. by rewrite IH.
    - by rewrite IH, (ask_ext f g q E).
  Qed.
  Lemma game_prefix choose b f n : forall ms, exists l, gm choose b f n ms = ms ++ l.
  Proof.
    induction n as [|n IH]; intros ms; cbn [game]; [exists []; by rewrite app_nil_r|].
    destruct (choose _) as [m|]; [|exists []; by rewrite app_nil_r].
    destruct (IH (ms ++ [m])) as [l ->]. exists (m :: l). by rewrite <- (assoc_L (++)).
  Qed.
  (** The games of two functions agree if the transcripts of one of the games agree. *)
  Lemma game_same choose b b' f g n : forall ms,
    script b f (gm choose b f n ms) = script b' g (gm choose b f n ms) -> gm choose b' g n ms = gm choose b f n ms.
  Proof.
    induction n as [|n IH]; intros ms H; [done|].
    assert (E : script b f ms = script b' g ms).
    { destruct (game_prefix choose b f (S n) ms) as [l El]. rewrite El in H.
      by rewrite <- (script_take b f ms l), <- (script_take b' g ms l), H. }
    cbn [game] in *. rewrite <- E. destruct (choose (script b f ms)) as [m|]; [|done]. by apply IH.
  Qed.

  Lemma script_T ms f : valid ms -> ok f ->
    script false f ms = script true (T (done_by false ms) (done_by true ms) f) ms.
  Proof.
    intros Hv Hf. unfold transcript. rewrite (T_view ms f Hv Hf).
    generalize (view (T (done_by false ms) (done_by true ms) f) (done_by true ms)).
    assert (Ha : forall q, Ask q ∈ ms -> ask (T (done_by false ms) (done_by true ms) f) q = ask f q) by (intros; by apply T_ask).
    revert Ha. generalize (T (done_by false ms) (done_by true ms) f) as g. clear Hv. intros g Ha.
    induction ms as [|[o o'|q] ms IH]; intros vs; cbn [sights]; [done| |].
    - destruct vs; [done|]. rewrite IH; [done|]. intros q Hq. apply Ha. by right.
    - rewrite IH; [|intros q' Hq; apply Ha; by right]. by rewrite (Ha q) by left.
  Qed.

  Variables (choose : list (sight V A) -> option (move O Q)) (n : nat).
  Notation L f := (gm choose false f n []).
  Notation R f := (gm choose true f n []).
  Hypothesis allowed : forall f, ok f -> valid (L f) /\ valid (R f).
  Definition game_there (f : F) : F := T (done_by false (L f)) (done_by true (L f)) f.
  Definition game_back (g : F) : F := B (done_by false (R g)) (done_by true (R g)) g.

  Lemma R_there f : ok f -> R (game_there f) = L f.
  Proof.
    intros Hf. destruct (allowed f Hf) as [Hv _]. apply game_same. by apply script_T.
  Qed.
  Lemma game_transcript f : ok f -> script false f (L f) = script true (game_there f) (R (game_there f)).
  Proof. intros Hf. rewrite R_there by done. apply script_T; [by apply allowed|done]. Qed.
  Lemma L_back g : ok g -> L (game_back g) = R g.
  Proof.
    intros Hg. destruct (allowed g Hg) as [_ Hv]. apply game_same.
    assert (Hb : ok (game_back g)) by (by apply T_ok).
    rewrite (script_T (R g) (game_back g) Hv Hb). symmetry. apply script_ext. unfold game_back.
    by apply T_inv.
  Qed.
  Lemma game_ok f : ok f -> ok (game_there f) /\ ok (game_back f).
  Proof. intros Hf. destruct (allowed f Hf) as [H1 H2]. split; by apply T_ok. Qed.
  Lemma game_inv f : ok f -> same (game_back (game_there f)) f /\ same (game_there (game_back f)) f.
  Proof.
    intros Hf. destruct (allowed f Hf) as [H1 H2]. split.
    - unfold game_back. rewrite R_there by done. unfold game_there. by apply T_inv.
    - unfold game_there. rewrite L_back by done. unfold game_back. by apply T_inv.
  Qed.
End games.
