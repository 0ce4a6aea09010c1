(** The greedy delegation move (C18) and its monotonicity in the amount of stake. *)
From Coq Require Import ZArith QArith Qcanon List Bool Arith Lia Permutation.
From Verif Require Import Num Py QcTac Rewards SortedKeyList World Stakeholder RewardFacts ListFacts.
Import ListNotations.
Open Scope nat_scope.

(** the loop without accumulators: allocations, remaining stake, the pools that were looked at *)
Section Fill.
  Context {A : Arith}.
  Variable rs : rss A.
  Notation num := (T A).
  Definition room (p : pool A) : num := sub (pool_threshold rs (p_pledge p)) (p_stake p).
  Definition saturated (p : pool A) : bool := ltb (room p) min_stake_unit.
  Fixpoint fill (pools : list (pool A)) (s : num) : dict num * num * list (pool A) :=
    match pools with
    | [] => ([], s, [])
    | p :: rest =>
        if saturated p then let '(d, r, seen) := fill rest s in (d, r, p :: seen)
        else
          let a := pmin s (room p) in
          let s' := sub s a in
          if ltb s' min_stake_unit then ([(p_id p, a)], s', [p])
          else let '(d, r, seen) := fill rest s' in ((p_id p, a) :: d, r, p :: seen)
    end.
  Definition first_saturated (l : list (pool A)) : option nat := option_map p_id (find saturated l).

  Lemma greedy_fill pools : forall s allocs best, NoDup (map p_id pools) -> (forall p, In p pools -> ~ In (p_id p) (keys allocs)) ->
    greedy rs pools s allocs best =
      (let '(d, r, seen) := fill pools s in (allocs ++ d, r, match best with Some _ => best | None => first_saturated seen end)).
  Proof.
    induction pools as [|p pools IH]; intros s allocs best N F; cbn [greedy fill].
    - rewrite app_nil_r. now destruct best.
    - cbn [map] in N. inversion N; subst. fold (room p). fold (saturated p).
      destruct (saturated p) eqn:S.
      + rewrite IH; [| assumption | intros; apply F; now right].
        destruct (fill pools s) as [[d r] seen]. f_equal. unfold first_saturated. cbn [find]. rewrite S. now destruct best.
      + set (a := pmin s (room p)).
        assert (Fp : ~ In (p_id p) (keys allocs)) by (apply F; now left).
        rewrite (set_new allocs (p_id p) a Fp).
        destruct (ltb (sub s a) min_stake_unit).
        * f_equal. unfold first_saturated. cbn [find]. rewrite S. now destruct best.
        * rewrite IH; [| assumption |].
          -- destruct (fill pools (sub s a)) as [[d r] seen]. rewrite <- app_assoc. f_equal. unfold first_saturated. cbn [find]. rewrite S. now destruct best.
          -- intros q Hq I. unfold keys in I. rewrite map_app in I. apply in_app_iff in I as [I|[I|[]]].
             ++ apply (F q); [now right | assumption].
             ++ cbn in I. apply H1. rewrite I. now apply in_map.
  Qed.
  Lemma greedy_allocations_fill pools s : NoDup (map p_id pools) ->
    greedy_allocations rs pools s =
      (let '(d, r, seen) := fill pools s in
       match first_saturated seen with Some id => if leb min_stake_unit r then set d id r else d | None => d end).
  Proof.
    intros N. unfold greedy_allocations. rewrite greedy_fill; [| assumption | intros ? ? []]. now destruct (fill pools s) as [[d r] seen].
  Qed.
  Lemma fill_seen pools : forall s, let '(d, r, seen) := fill pools s in
    exists rest, pools = seen ++ rest /\ incl (keys d) (map p_id (filter (fun p => negb (saturated p)) seen)).
  Proof.
    induction pools as [|p pools IH]; intros s; cbn [fill].
    - exists []. split; [reflexivity | intros ? []].
    - destruct (saturated p) eqn:S.
      + specialize (IH s). destruct (fill pools s) as [[d r] seen]. destruct IH as (rest & -> & I). exists rest. split; [reflexivity|].
        cbn [filter]. rewrite S. exact I.
      + destruct (ltb (sub s (pmin s (room p))) min_stake_unit).
        * exists pools. split; [reflexivity|]. cbn [filter]. rewrite S. cbn. intros x [<-|[]]. now left.
        * specialize (IH (sub s (pmin s (room p)))). destruct (fill pools _) as [[d r] seen]. destruct IH as (rest & -> & I). exists rest.
          split; [reflexivity|]. cbn [filter]. rewrite S. cbn. intros x [<-|H]; [now left | right; now apply I].
  Qed.
  Lemma fill_nodup pools : forall s, NoDup (map p_id pools) -> let '(d, r, seen) := fill pools s in NoDup (keys d).
  Proof.
    induction pools as [|p pools IH]; intros s N; cbn [fill]; [constructor|]. cbn [map] in N. inversion N; subst.
    destruct (saturated p).
    - specialize (IH s H2). now destruct (fill pools s) as [[d r] seen].
    - destruct (ltb _ _); [repeat constructor; intros []|].
      specialize (IH (sub s (pmin s (room p))) H2). assert (FS := fill_seen pools (sub s (pmin s (room p)))).
      destruct (fill pools _) as [[d r] seen]. destruct FS as (rest & -> & I). cbn. constructor; [|assumption].
      intros H. apply I in H. apply H1. rewrite map_app. apply in_app_iff. left. apply in_map_iff in H as (q & E & Hq).
      apply filter_In in Hq as [Hq _]. rewrite <- E. now apply in_map.
  Qed.
  (** which pools the move uses: only eligible pools, each once *)
  Lemma first_saturated_In l id : first_saturated l = Some id -> exists p, In p l /\ saturated p = true /\ p_id p = id.
  Proof.
    unfold first_saturated. destruct (find saturated l) as [p|] eqn:E; [|discriminate]. intros [= <-]. apply find_some in E as [I S]. eauto.
  Qed.
  Lemma greedy_keys pools s : NoDup (map p_id pools) ->
    NoDup (keys (greedy_allocations rs pools s)) /\ incl (keys (greedy_allocations rs pools s)) (map p_id pools).
  Proof.
    intros N. rewrite greedy_allocations_fill by assumption.
    assert (FS := fill_seen pools s). assert (FN := fill_nodup pools s N). destruct (fill pools s) as [[d r] seen]. destruct FS as (rest & -> & I).
    assert (Id : incl (keys d) (map p_id (seen ++ rest))).
    { intros x Hx. apply I in Hx. rewrite map_app. apply in_app_iff. left. apply in_map_iff in Hx as (q & <- & Hq). apply filter_In in Hq as [Hq _]. now apply in_map. }
    destruct (first_saturated seen) as [id|] eqn:E; [|split; assumption].
    destruct (leb min_stake_unit r); [|split; assumption]. split; [now apply NoDup_set|].
    destruct (first_saturated_In _ _ E) as (p & Ip & _ & <-).
    intros x Hx. destruct (in_dec Nat.eq_dec (p_id p) (keys d)) as [H|H].
    - rewrite keys_set_in in Hx by assumption. now apply Id.
    - rewrite keys_set_new in Hx by assumption. apply in_app_iff in Hx as [Hx|[<-|[]]]; [now apply Id|]. apply in_map. apply in_app_iff; now left.
  Qed.
  (** every allocation is at least MIN_STAKE_UNIT (any arithmetic with a total preorder) *)
  Lemma fill_min (O : OrdLaws A) pools : forall s, ltb s min_stake_unit = false ->
    let '(d, r, seen) := fill pools s in forall id v, In (id, v) d -> ltb v min_stake_unit = false.
  Proof.
    induction pools as [|p pools IH]; intros s Hs; cbn [fill]; [intros ? ? []|].
    assert (Ha : saturated p = false -> ltb (pmin s (room p)) min_stake_unit = false).
    { intros S. unfold pmin. destruct (ltb (room p) s); [exact S | exact Hs]. }
    destruct (saturated p) eqn:S.
    - specialize (IH s Hs). now destruct (fill pools s) as [[d r] seen].
    - destruct (ltb (sub s (pmin s (room p))) min_stake_unit) eqn:E.
      + intros id v [[= <- <-]|[]]. now apply Ha.
      + specialize (IH _ E). destruct (fill pools _) as [[d r] seen]. intros id v [[= <- <-]|H]; [now apply Ha | eapply IH; eassumption].
  Qed.
  Lemma greedy_min (O : OrdLaws A) pools s id v : NoDup (map p_id pools) -> ltb s min_stake_unit = false ->
    get (greedy_allocations rs pools s) id = Some v -> ltb v min_stake_unit = false.
  Proof.
    intros N Hs. rewrite greedy_allocations_fill by assumption. assert (F := fill_min O pools s Hs). destruct (fill pools s) as [[d r] seen].
    destruct (first_saturated seen) as [i|]; [|intros H; apply get_In in H; eapply F; eassumption].
    destruct (leb min_stake_unit r) eqn:E; [|intros H; apply get_In in H; eapply F; eassumption].
    rewrite get_set. destruct (Nat.eqb_spec i id); [|intros H; apply get_In in H; eapply F; eassumption].
    intros [= <-]. rewrite (ol_leb A O) in E. now apply negb_true_iff in E.
  Qed.
End Fill.

(** * Exact arithmetic *)
Open Scope Qc_scope.
Definition MIN : Qc := Q2Qc (22 # 1000000000000000000).
Lemma MIN_pos : 0 < MIN.  Proof. reflexivity. Qed.
Definition total (d : dict Qc) : Qc := Qc_sum (map snd d).
Lemma total_cons k v d : total ((k, v) :: d) = v + total d.  Proof. reflexivity. Qed.
Lemma Qc_sum_perm l l' : Permutation l l' -> Qc_sum l = Qc_sum l'.
Proof.
  induction 1; cbn [Qc_sum fold_right]; [reflexivity | | | congruence].
  - unfold Qc_sum in IHPermutation. now rewrite IHPermutation.
  - ring.
Qed.
Lemma total_perm d d' : Permutation d d' -> total d = total d'.
Proof. intros P. apply Qc_sum_perm. now apply Permutation_map. Qed.
Lemma total_set_new d k v : ~ In k (keys d) -> total (set d k v) = total d + v.
Proof.
  intros N. rewrite set_new by assumption. rewrite (total_perm (d ++ [(k, v)]) ((k, v) :: d)); [rewrite total_cons; ring|].
  symmetry. apply Permutation_cons_append.
Qed.
Lemma total_pop d k v : get d k = Some v -> total d = v + total (pop d k).
Proof. intros H. rewrite (total_perm _ _ (pop_perm d k v H)). apply total_cons. Qed.
Lemma total_set d k v v0 : get d k = Some v0 -> total (set d k v) = total d - v0 + v.
Proof. intros H. rewrite (total_perm _ _ (set_perm d k v v0 H)), total_cons, (total_pop d k v0 H). ring. Qed.
Lemma total_nonneg d : (forall k v, In (k, v) d -> 0 <= v) -> 0 <= total d.
Proof.
  induction d as [|[k v] d IH]; intros H; [apply Qcle_refl|]. rewrite total_cons.
  assert (0 <= v) by (apply (H k); now left). assert (0 <= total d) by (apply IH; intros; eapply H; right; eassumption). qlra.
Qed.

Section FillQc.
  Variable rs : rss QcA.
  Notation room := (room (A := QcA) rs).
  Notation saturated := (saturated (A := QcA) rs).
  Notation fill := (fill (A := QcA) rs).
  Definition full (d : dict Qc) (p : pool QcA) : Prop := saturated p = true \/ get d (p_id p) = Some (room p).

  Lemma saturated_spec p : saturated p = true <-> room p < MIN.
  Proof. unfold Greedy.saturated. cbn [ltb min_stake_unit QcA]. fold MIN. destruct (Qc_ltb_spec (room p) MIN); split; intros; try assumption; try reflexivity; try discriminate; contradiction. Qed.

  Lemma fill_total pools : forall (s : Qc), let '(d, r, seen) := fill pools s in total d + r = s.
  Proof.
    induction pools as [|p pools IH]; intros s; cbn [Greedy.fill]; [change (total []) with 0; ring|].
    destruct (saturated p).
    - specialize (IH s). now destruct (fill pools s) as [[d r] seen].
    - set (a := pmin (A := QcA) s (room p) : Qc). destruct (ltb _ _); [rewrite total_cons; change (total []) with 0; cbn [sub QcA]; ring|].
      specialize (IH (s - a)). cbn [sub QcA]. destruct (fill pools (s - a)) as [[d r] seen]. rewrite total_cons, <- Qcplus_assoc, IH. ring.
  Qed.
  Lemma fill_rest pools : forall (s : Qc), 0 <= s -> let '(d, r, seen) := fill pools s in 0 <= r.
  Proof.
    induction pools as [|p pools IH]; intros s Hs; cbn [Greedy.fill]; [assumption|].
    destruct (saturated p).
    - specialize (IH s Hs). now destruct (fill pools s) as [[d r] seen].
    - set (a := pmin (A := QcA) s (room p) : Qc). cbn [sub QcA].
      assert (0 <= s - a). { unfold a, pmin. cbn [ltb QcA]. destruct (Qc_ltb_spec (room p) s); qlra. }
      destruct (ltb _ _); [assumption|].
      specialize (IH (s - a) H). now destruct (fill pools (s - a)) as [[d r] seen].
  Qed.
  Lemma ltb_MIN (x : Qc) : ltb (a := QcA) x min_stake_unit = true <-> x < MIN.
  Proof. cbn [ltb min_stake_unit QcA]. fold MIN. destruct (Qc_ltb_spec x MIN); split; intros; try assumption; try reflexivity; try discriminate; contradiction. Qed.
  Lemma ltb_MIN_false (x : Qc) : ltb (a := QcA) x min_stake_unit = false <-> MIN <= x.
  Proof. cbn [ltb min_stake_unit QcA]. fold MIN. destruct (Qc_ltb_spec x MIN); split; intros; try assumption; try reflexivity; try discriminate; qlra. Qed.
  Lemma leb_MIN (x : Qc) : leb (a := QcA) min_stake_unit x = true <-> MIN <= x.
  Proof. cbn [leb min_stake_unit QcA]. fold MIN. destruct (Qc_leb_spec MIN x); split; intros; try assumption; try reflexivity; try discriminate; contradiction. Qed.
  Lemma unsaturated_spec p : saturated p = false <-> MIN <= room p.
  Proof. apply ltb_MIN_false. Qed.

  (** pools that were looked at *)
  Lemma fill_spec pools : forall (s : Qc), NoDup (map p_id pools) -> MIN <= s ->
    let '(d, r, seen) := fill pools s in
    (MIN <= r -> seen = pools /\ forall p, In p pools -> full d p) /\
    (forall l1 p l2, pools = l1 ++ p :: l2 -> In p seen -> saturated p = false ->
       exists v, get d (p_id p) = Some v /\ MIN <= v /\ v <= room p /\ forall q, In q l1 -> full d q).
  Proof.
    induction pools as [|p pools IH]; intros s N Hs; cbn [Greedy.fill].
    { split; [intros _; split; [reflexivity | intros ? []] | intros l1 p l2 E _ _; now destruct l1]. }
    cbn [map] in N. apply NoDup_cons_iff in N as [Np N].
    destruct (saturated p) eqn:S.
    - specialize (IH s N Hs). destruct (fill pools s) as [[d r] seen] eqn:F. destruct IH as [H1 H2]. split.
      + intros Hr. destruct (H1 Hr) as [-> Hf]. split; [reflexivity|]. intros q [<-|Hq]; [now left | now apply Hf].
      + intros l1 q l2 E I Sq. destruct l1 as [|x l1]; cbn in E; inversion E; subst; [congruence|].
        destruct I as [->|I]; [congruence|]. destruct (H2 l1 q l2 eq_refl I Sq) as (v & G & V1 & V2 & B). exists v. repeat split; try assumption.
        intros q' [<-|Hq']; [now left | now apply B].
    - apply unsaturated_spec in S as Sr. set (a := pmin (A := QcA) s (room p) : Qc).
      assert (Ha : MIN <= a /\ a <= room p /\ (a = s \/ a = room p)).
      { unfold a, pmin. cbn [ltb QcA]. destruct (Qc_ltb_spec (room p) s); repeat split; try tauto; try assumption; qlra. }
      cbn [sub QcA]. destruct (ltb (a := QcA) (s - a) min_stake_unit) eqn:E.
      + apply ltb_MIN in E. split.
        * intros Hr. exfalso. change (T QcA) with Qc in *. qlra.
        * intros l1 q l2 E' [->|[]] Sq. destruct l1 as [|x l1]; cbn in E'.
          -- exists a. cbn [get]. rewrite Nat.eqb_refl. repeat split; try tauto. intros ? [].
          -- exfalso. inversion E'; subst. apply Np. rewrite map_app. apply in_app_iff. right. now left.
      + apply ltb_MIN_false in E. specialize (IH (s - a) N E). assert (FS := fill_seen rs pools (s - a)).
        assert (Far : a = room p) by (destruct Ha as (_ & _ & [Ea|Ea]); [exfalso; rewrite Ea in E; assert (P := MIN_pos); qlra | exact Ea]).
        destruct (fill pools (s - a)) as [[d r] seen]. destruct IH as [H1 H2]. destruct FS as (rest & Es & Hk).
        assert (Fp : forall q, In q pools -> full d q -> full ((p_id p, a) :: d) q).
        { intros q Hq [Hs'|Hg]; [now left|]. right. cbn [get]. destruct (Nat.eqb_spec (p_id q) (p_id p)); [|assumption].
          exfalso. apply Np. rewrite <- e. now apply in_map. }
        assert (Fh : full ((p_id p, a) :: d) p) by (right; cbn [get]; rewrite Nat.eqb_refl; exact (f_equal Some Far)).
        split.
        * intros Hr. destruct (H1 Hr) as [-> Hf]. split; [reflexivity|]. intros q [<-|Hq]; [assumption|]. apply Fp; [assumption | now apply Hf].
        * intros l1 q l2 E' I Sq. destruct l1 as [|x l1]; cbn in E'; injection E' as E1 E2; subst.
          -- exists (room q). cbn [get]. rewrite Nat.eqb_refl. repeat split; try tauto; [exact (f_equal Some Far) | apply Qcle_refl | intros ? []].
          -- destruct I as [->|I].
             { exfalso. apply Np. rewrite E2, map_app. apply in_app_iff. right. now left. }
             destruct (H2 l1 q l2 E2 I Sq) as (v & G & V1 & V2 & B). exists v. cbn [get]. destruct (Nat.eqb_spec (p_id q) (p_id x)).
             { exfalso. apply Np. rewrite E2, map_app. apply in_app_iff. right. now left. }
             repeat split; try assumption. intros q' [<-|Hq']; [assumption|]. apply Fp; [|now apply B]. rewrite E2. apply in_app_iff. now left.
  Qed.

  Definition unsaturated (p : pool QcA) : bool := negb (saturated p).
  (** if stake is left over, every pool with room is filled *)
  Lemma fill_all pools : forall (s : Qc), let '(d, r, seen) := fill pools s in
    MIN <= r -> seen = pools /\ d = map (fun p => (p_id p, room p)) (filter unsaturated pools).
  Proof.
    induction pools as [|p pools IH]; intros s; cbn [Greedy.fill]; [split; reflexivity|].
    cbn [filter]. unfold unsaturated at 1. destruct (saturated p) eqn:S; cbn [negb].
    - specialize (IH s). destruct (fill pools s) as [[d r] seen]. intros Hr. destruct (IH Hr) as [-> ->]. split; reflexivity.
    - apply unsaturated_spec in S as Sr. set (a := pmin (A := QcA) s (room p) : Qc). cbn [sub QcA].
      destruct (ltb (a := QcA) (s - a) min_stake_unit) eqn:E.
      + apply ltb_MIN in E. intros Hr. exfalso. qlra.
      + specialize (IH (s - a)). apply ltb_MIN_false in E.
        assert (Ha : a = room p).
        { unfold a, pmin in *. cbn [ltb QcA] in *. destruct (Qc_ltb_spec (room p) s); [reflexivity|]. exfalso. assert (P := MIN_pos). qlra. }
        destruct (fill pools (s - a)) as [[d r] seen]. intros Hr. destruct (IH Hr) as [-> ->]. cbn [map]. rewrite Ha. split; reflexivity.
  Qed.

  Definition rooms (pools : list (pool QcA)) : Qc := Qc_sum (map room (filter unsaturated pools)).

  (** C18: the allocation for the stake [s] over the eligible pools in rank order, given with the stakes they have without the agent's own delegations *)
  Theorem greedy_correct pools (s : Qc) : NoDup (map p_id pools) -> MIN <= s ->
    let al := greedy_allocations rs pools s in
    NoDup (keys al) /\ incl (keys al) (map p_id pools) /\
    (forall id v, get al id = Some v -> MIN <= v) /\
    total al <= s /\
    (forall l1 p l2 v, pools = l1 ++ p :: l2 -> saturated p = false -> get al (p_id p) = Some v ->
       v <= room p /\ forall q, In q l1 -> full al q) /\
    (forall l1 p l2 v, pools = l1 ++ p :: l2 -> saturated p = true -> get al (p_id p) = Some v ->
       (forall q, In q l1 -> saturated q = false) /\ (forall q, In q pools -> saturated q = false -> get al (p_id q) = Some (room q)) /\ v = s - rooms pools) /\
    (MIN <= s - total al -> forall p, In p pools -> saturated p = false /\ get al (p_id p) = Some (room p)).
  Proof.
    intros N Hs al. destruct (greedy_keys rs pools s N) as [K1 K2]. fold al in K1, K2. split; [assumption|]. split; [assumption|].
    split. { intros id v H. apply ltb_MIN_false. eapply greedy_min; [exact QcA_ord | exact N | | exact H]. now apply ltb_MIN_false. }
    assert (FT := fill_total pools s). assert (FS := fill_seen rs pools s). assert (FN := fill_nodup rs pools s N).
    assert (FP := fill_spec pools s N Hs). assert (FR := fill_rest pools s (Qcle_trans _ _ _ (Qclt_le_weak _ _ MIN_pos) Hs)). assert (FA := fill_all pools s).
    unfold al in *. clear al. rewrite greedy_allocations_fill in * by assumption.
    destruct (fill pools s) as [[d r] seen]. destruct FP as [P1 P2]. destruct FS as (rest & Es & Hk).
    (* keys of d are ids of unsaturated pools *)
    assert (Dn : forall p, In p pools -> saturated p = true -> get d (p_id p) = None).
    { intros p Hp Sp. apply get_None. intros I. apply Hk in I. apply in_map_iff in I as (q & Eq & Hq). apply filter_In in Hq as [Hq Sq].
      assert (q = p) by (eapply (NoDup_map_in p_id pools); eauto; rewrite Es; apply in_app_iff; now left). subst q. now rewrite Sp in Sq. }
    assert (Dseen : forall p, In p pools -> saturated p = false -> (exists v, get d (p_id p) = Some v) -> In p seen).
    { intros p Hp Sp I. apply get_Some_key in I. apply Hk in I. apply in_map_iff in I as (q & Eq & Hq). apply filter_In in Hq as [Hq Sq].
      assert (q = p) by (eapply (NoDup_map_in p_id pools); eauto; rewrite Es; apply in_app_iff; now left). now subst q. }
    assert (Main : forall id, first_saturated rs seen = Some id -> MIN <= r ->
              total (set d id r) = s /\
              exists l1 p l2, pools = l1 ++ p :: l2 /\ p_id p = id /\ saturated p = true /\ forall q, In q l1 -> saturated q = false).
    { intros id Hf Hr. destruct (FA Hr) as [Eseen Ed].
      unfold first_saturated in Hf. destruct (find (saturated) seen) as [p|] eqn:Ef; [|discriminate]. injection Hf as Hf.
      assert (Sp := find_some _ _ Ef). destruct Sp as [Ip Sp]. rewrite Eseen in Ip. split.
      - rewrite total_set_new; [exact FT|]. apply get_None. rewrite <- Hf. now apply Dn.
      - rewrite Eseen in Ef. clear -Ef Hf Sp. revert Ef. induction pools as [|q ps IH]; cbn [find]; [discriminate|].
        destruct (saturated q) eqn:Sq.
        + intros [= ->]. exists [], p, ps. repeat split; auto. intros ? [].
        + intros Ef. destruct (IH Ef) as (l1 & p' & l2 & -> & H1 & H2 & H3). exists (q :: l1), p', l2. repeat split; auto.
          intros q' [<-|Hq']; auto. }
    assert (Rest : total d <= s /\
      (forall l1 p l2 v, pools = l1 ++ p :: l2 -> saturated p = false -> get d (p_id p) = Some v -> v <= room p /\ forall q, In q l1 -> full d q) /\
      (forall l1 p l2 v, pools = l1 ++ p :: l2 -> saturated p = true -> get d (p_id p) = Some v ->
         (forall q, In q l1 -> saturated q = false) /\ (forall q, In q pools -> saturated q = false -> get d (p_id q) = Some (room q)) /\ v = s - rooms pools)).
    { split; [rewrite <- FT; change (T QcA) with Qc in *; qlra|]. split.
      - intros l1 p l2 v E Sp G. assert (Ip : In p pools) by (rewrite E; apply in_app_iff; right; now left).
        destruct (P2 l1 p l2 E) as (v' & G' & _ & V & B); [apply Dseen; eauto | assumption |]. rewrite G' in G. injection G as <-. now split.
      - intros l1 p l2 v E Sp G. assert (Ip : In p pools) by (rewrite E; apply in_app_iff; right; now left). rewrite Dn in G by assumption. discriminate. }
    (* the overflow goes to a pool that is not in d *)
    destruct (first_saturated rs seen) as [id|] eqn:Efs; [destruct (leb min_stake_unit r) eqn:Er|].
    - apply leb_MIN in Er. destruct (Main id eq_refl Er) as [Tt (m1 & pm & m2 & Em & Eid & Spm & Bm)]. destruct (P1 Er) as [Eseen Full].
      destruct (FA Er) as [_ Ed].
      assert (Hset : forall q, In q pools -> saturated q = false -> get (set d id r) (p_id q) = get d (p_id q)).
      { intros q Hq Sq. apply get_set_ne. intros E. assert (q = pm); [|subst q; congruence].
        eapply (NoDup_map_in p_id pools); eauto; [rewrite Em; apply in_app_iff; right; now left | congruence]. }
      split; [rewrite Tt; apply Qcle_refl|]. split; [|split].
      + intros l1 p l2 v E Sp G. assert (Ip : In p pools) by (rewrite E; apply in_app_iff; right; now left).
        rewrite Hset in G by assumption. destruct (P2 l1 p l2 E) as (v' & G' & _ & V & B); [now rewrite Eseen | assumption |].
        rewrite G' in G. injection G as <-. split; [assumption|]. intros q Hq. destruct (saturated q) eqn:Sq; [now left|]. right.
        assert (Iq : In q pools) by (rewrite E; apply in_app_iff; now left). rewrite Hset by assumption. destruct (B q Hq); [congruence | assumption].
      + intros l1 p l2 v E Sp G. assert (Ip : In p pools) by (rewrite E; apply in_app_iff; right; now left).
        assert (Epm : p = pm).
        { eapply (NoDup_map_in p_id pools); eauto; [rewrite Em; apply in_app_iff; right; now left|]. rewrite Eid.
          destruct (Nat.eq_dec (p_id p) id); [assumption|]. rewrite get_set_ne in G by congruence. rewrite Dn in G by assumption. discriminate. }
        subst pm. rewrite Eid, get_set_eq in G. injection G as <-.
        assert (El : l1 = m1).
        { assert (NP : NoDup pools) by (eapply NoDup_map_inv; exact N). rewrite E in NP.
          rewrite E in Em. clear -Em NP. revert m1 Em. induction l1 as [|x l1 IH]; intros m1 Em; destruct m1 as [|y m1]; cbn in Em.
          - reflexivity.
          - injection Em as Ex Em. exfalso. cbn in NP. apply NoDup_cons_iff in NP as [NP _]. apply NP. rewrite Em. apply in_app_iff. right. now left.
          - injection Em as Ex Em. subst x. exfalso. cbn in NP. apply NoDup_cons_iff in NP as [NP _]. apply NP. apply in_app_iff. right. now left.
          - injection Em as -> Em. f_equal. cbn in NP. apply NoDup_cons_iff in NP as [_ NP]. now apply IH. }
        subst m1. split; [assumption|]. split.
        * intros q Hq Sq. rewrite Hset by assumption. destruct (Full q Hq); [congruence | assumption].
        * unfold rooms. rewrite <- FT. rewrite Ed. unfold total. rewrite map_map. cbn [snd]. change (map (fun x => room x)) with (map room). set (Z1 := Qc_sum _). unfold Qcminus. change (T QcA) with Qc in *. ring.
      + intros H. rewrite Tt in H. exfalso. assert (P := MIN_pos). qlra.
    - assert (Er' : r < MIN). { destruct (Qclt_le_dec r MIN) as [H|H]; [assumption|]. apply leb_MIN in H. congruence. }
      destruct Rest as (R1 & R2 & R3). split; [assumption|]. split; [assumption|]. split; [assumption|].
      intros H. exfalso. rewrite <- FT in H. change (T QcA) with Qc in *. qlra.
    - destruct Rest as (R1 & R2 & R3). split; [assumption|]. split; [assumption|]. split; [assumption|].
      intros H p Hp. assert (Er : MIN <= r) by (rewrite <- FT in H; change (T QcA) with Qc in *; qlra).
      destruct (P1 Er) as [Eseen Full]. unfold first_saturated in Efs. destruct (find saturated seen) eqn:Ef; [discriminate|].
      rewrite Eseen in Ef. assert (Sp := find_none _ _ Ef p Hp). split; [assumption|]. destruct (Full p Hp); [congruence | assumption].
  Qed.

  (** a smaller amount never gives a pool more *)
  Lemma fill_mono pools : forall (s' s : Qc), s' <= s ->
    let '(d', r', seen') := fill pools s' in let '(d, r, seen) := fill pools s in
    (forall id v', In (id, v') d' -> exists v, In (id, v) d /\ v' <= v) /\ (MIN <= r' -> r' <= r /\ seen' = seen).
  Proof.
    induction pools as [|p pools IH]; intros s' s Hs; cbn [Greedy.fill].
    { split; [intros ? ? [] | intros _; now split]. }
    destruct (saturated p).
    - specialize (IH s' s Hs). destruct (fill pools s') as [[d' r'] seen']. destruct (fill pools s) as [[d r] seen].
      destruct IH as [H1 H2]. split; [assumption|]. intros H. destruct (H2 H) as [H3 ->]. now split.
    - set (a' := pmin (A := QcA) s' (room p) : Qc). set (a := pmin (A := QcA) s (room p) : Qc). cbn [sub QcA].
      assert (Ha : a' <= a /\ s' - a' <= s - a).
      { unfold a, a', pmin. cbn [ltb QcA]. destruct (Qc_ltb_spec (room p) s'), (Qc_ltb_spec (room p) s); split; qlra. }
      destruct Ha as [Ha Hr]. specialize (IH (s' - a') (s - a) Hr).
      destruct (ltb (a := QcA) (s' - a') min_stake_unit) eqn:E'.
      + apply ltb_MIN in E'. destruct (ltb (a := QcA) (s - a) min_stake_unit) eqn:E.
        * split; [|intros H; exfalso; qlra]. intros id v' [[= <- <-]|[]]. exists a. split; [now left | assumption].
        * destruct (fill pools (s - a)) as [[d r] seen]. split; [|intros H; exfalso; qlra].
          intros id v' [[= <- <-]|[]]. exists a. split; [now left | assumption].
      + apply ltb_MIN_false in E'. destruct (ltb (a := QcA) (s - a) min_stake_unit) eqn:E.
        { apply ltb_MIN in E. exfalso. qlra. }
        destruct (fill pools (s' - a')) as [[d' r'] seen']. destruct (fill pools (s - a)) as [[d r] seen]. destruct IH as [H1 H2]. split.
        * intros id v' [[= <- <-]|H]; [exists a; split; [now left | assumption]|]. destruct (H1 id v' H) as (v & ? & ?). exists v. split; [now right | assumption].
        * intros H. destruct (H2 H) as [H3 ->]. now split.
  Qed.
  Lemma overflow_fresh pools s : NoDup (map p_id pools) -> let '(d, r, seen) := fill pools s in
    forall id, first_saturated rs seen = Some id -> get d id = None.
  Proof.
    intros N. assert (FS := fill_seen rs pools s). destruct (fill pools s) as [[d r] seen]. destruct FS as (rest & Es & Hk).
    intros id Hf. destruct (first_saturated_In rs _ _ Hf) as (p & Ip & Sp & <-).
    apply get_None. intros I. apply Hk in I. apply in_map_iff in I as (q & Eq & Hq). apply filter_In in Hq as [Hq Sq].
    assert (q = p) by (eapply (NoDup_map_in p_id pools); eauto; rewrite Es; apply in_app_iff; now left). subst q. now rewrite Sp in Sq.
  Qed.
  Theorem greedy_mono pools (s' s : Qc) id v' : NoDup (map p_id pools) -> s' <= s ->
    get (greedy_allocations rs pools s') id = Some v' -> exists v, get (greedy_allocations rs pools s) id = Some v /\ v' <= v.
  Proof.
    intros N Hs. rewrite !greedy_allocations_fill by assumption.
    assert (FM := fill_mono pools s' s Hs). assert (OF := overflow_fresh pools s N). assert (ND := fill_nodup rs pools s N).
    destruct (fill pools s') as [[d' r'] seen']. destruct (fill pools s) as [[d r] seen]. destruct FM as [M1 M2].
    assert (D : get d' id = Some v' -> exists v, get (match first_saturated rs seen with Some id => if leb min_stake_unit r then set d id r else d | None => d end) id = Some v /\ v' <= v).
    { intros H. destruct (M1 id v' (get_In _ _ _ H)) as (v & Hv & Le). exists v. split; [|assumption]. apply (In_get d) in Hv; [|assumption].
      destruct (first_saturated rs seen) as [i|] eqn:E; [|assumption]. destruct (leb min_stake_unit r); [|assumption].
      rewrite get_set_ne; [assumption|]. intros <-. rewrite (OF i eq_refl) in Hv. discriminate. }
    destruct (first_saturated rs seen') as [i|] eqn:E'; [|exact D].
    destruct (leb min_stake_unit r') eqn:Er'; [|exact D].
    rewrite get_set. destruct (Nat.eqb_spec i id) as [->|Ne]; [|exact D].
    intros [= <-]. apply leb_MIN in Er'. destruct (M2 Er') as [Hr ->]. rewrite E'.
    assert (Er : leb (a := QcA) min_stake_unit r = true) by (apply leb_MIN; qlra). rewrite Er, get_set_eq. eauto.
  Qed.
End FillQc.
