(** What an agent's evaluation of its options (update_strategy) does to the state, and what the strategy it comes up with looks like. *)
From Coq Require Import ZArith List Bool Arith Lia Permutation.
From Verif Require Import Num Py Rewards SortedKeyList World Stakeholder ListFacts SLFacts Greedy Inv Exec.
Import ListNotations.
Open Scope nat_scope.

(** a margin chosen by the code: 0 or a value returned by calculate_suitable_margin for a target of the kind [TG] *)
Definition margin_src {A : Arith} (TG : T A -> Prop) (m : T A) : Prop := m = zero \/ exists x y, TG y /\ suitable_margin x y = Ok m.

Section Search.
  Context {A : Arith} {X : Type}.
  Lemma search_ok (f : Z -> res (X * T A)) fuel : forall a b t x, search f fuel a b = Ok (t, x) ->
    (exists u, f t = Ok (x, u)) /\ ((a <= b)%Z -> (a <= t <= b)%Z).
  Proof.
    induction fuel as [|fuel IH]; intros a b t x H; cbn in H; [discriminate|].
    set (c := ((a + b) / 2)%Z) in *. assert (Hc : (a <= b)%Z -> (a <= c <= b)%Z).
    { intros. unfold c. split; [apply Z.div_le_lower_bound | apply Z.div_le_upper_bound]; lia. }
    apply bind_ok in H as ([x0 u0] & H0 & H). cbn [fst snd] in H.
    assert (Plus : (if (c <? b)%Z then let! xp := f (c + 1)%Z in if ltb u0 (snd xp) then search f fuel (c + 1)%Z b else Ok (c, x0) else Ok (c, x0)) = Ok (t, x) ->
                   (exists u, f t = Ok (x, u)) /\ ((a <= b)%Z -> (a <= t <= b)%Z)).
    { intros K. destruct (Z.ltb_spec c b).
      - apply bind_ok in K as ([x1 u1] & K1 & K). cbn [snd] in K. destruct (ltb u0 u1).
        + apply IH in K as [K2 K3]. split; [exact K2|]. intros Hab. specialize (Hc Hab). lia.
        + injection K as <- <-. eauto.
      - injection K as <- <-. eauto. }
    destruct (Z.ltb_spec a c).
    - apply bind_ok in H as ([x1 u1] & K1 & H). cbn [snd] in H. destruct (ltb u0 u1).
      + apply IH in H as [K2 K3]. split; [exact K2|]. intros Hab. specialize (Hc Hab). lia.
      + now apply Plus.
    - now apply Plus.
  Qed.
  Lemma search_empty (f : Z -> res (X * T A)) fuel a b t x : search f fuel a b = Ok (t, x) -> (b < a)%Z -> t = ((a + b) / 2)%Z.
  Proof.
    destruct fuel as [|fuel]; [discriminate|]. cbn [search]. intros H L. apply bind_ok in H as ([x0 u0] & _ & H).
    assert (b <= (a + b) / 2 <= a)%Z by (split; [apply Z.div_le_lower_bound | apply Z.div_le_upper_bound]; lia).
    destruct (Z.ltb_spec a ((a + b) / 2)%Z); [lia|]. destruct (Z.ltb_spec ((a + b) / 2)%Z b); [lia|]. now injection H.
  Qed.
End Search.

Section Eval.
  Context {A : Arith} (O : OrdLaws A) (MP : ltb (zero (a := A)) min_stake_unit = true).
  Variable so : list nat -> list nat -> list nat.
  Hypothesis so_perm : forall c l, Permutation (so c l) l.
  Implicit Types w : world A. Implicit Types p q : pool A. Implicit Types st new : strategy A. Implicit Types ag : agent A.
  Notation num := (T A).

  Variable TG : num -> Prop.
  Notation margin_src := (margin_src TG).

  (** ** changes to the heap only *)
  Definition params_eq (w w' : world A) : Prop :=
    w_rss w' = w_rss w /\ w_rel w' = w_rel w /\ w_abs w' = w_abs w /\ w_phi w' = w_phi w /\ w_simul w' = w_simul w /\ w_total w' = w_total w /\
    w_agents w' = w_agents w /\ w_pools w' = w_pools w /\ w_rank w' = w_rank w /\ w_idle w' = w_idle w.
  Lemma params_eq_refl w : params_eq w w. Proof. repeat split. Qed.
  Lemma params_eq_trans w w1 w2 : params_eq w w1 -> params_eq w1 w2 -> params_eq w w2.
  Proof. unfold params_eq. intuition congruence. Qed.

  Definition fresh_ok (w : world A) : Prop := forall r p, get (w_heap w) r = Some p -> r < w_next w.

  (** objects that existed before are untouched *)
  Definition hext (w w' : world A) : Prop :=
    params_eq w w' /\ w_rankm w' = w_rankm w /\ w_next w <= w_next w' /\ w_idseq w <= w_idseq w' /\ fresh_ok w' /\
    forall r, r < w_next w -> get (w_heap w') r = get (w_heap w) r.
  Lemma hext_refl w : fresh_ok w -> hext w w.
  Proof. intros F. split; [apply params_eq_refl|]. repeat split; auto. Qed.
  Lemma hext_trans w w1 w2 : hext w w1 -> hext w1 w2 -> hext w w2.
  Proof.
    intros (P1 & R1 & N1 & S1 & F1 & H1) (P2 & R2 & N2 & S2 & F2 & H2). split; [eapply params_eq_trans; eassumption|]. split; [congruence|].
    split; [lia|]. split; [lia|]. split; [assumption|]. intros r Hr. rewrite H2 by lia. now apply H1.
  Qed.
  Lemma hext_alloc w w1 p : hext w w1 -> hext w (fst (alloc w1 p)).
  Proof.
    intros (P1 & R1 & N1 & S1 & F1 & H1). split; [exact P1|]. split; [exact R1|]. cbn. split; [lia|]. split; [assumption|]. split.
    - intros r q. cbn. rewrite get_set. destruct (Nat.eqb_spec (w_next w1) r); [lia|]. intros G. apply F1 in G. lia.
    - intros r Hr. rewrite get_set_ne by lia. now apply H1.
  Qed.
  Lemma hext_idseq w w1 : hext w w1 -> hext w (with_idseq (S (w_idseq w1)) w1).
  Proof. intros (P1 & R1 & N1 & S1 & F1 & H1). split; [exact P1|]. split; [exact R1|]. cbn. split; [lia|]. split; [lia|]. split; assumption. Qed.
  Lemma hext_store w w1 r p : hext w w1 -> w_next w <= r < w_next w1 -> hext w (store w1 r p).
  Proof.
    intros (P1 & R1 & N1 & S1 & F1 & H1) Hr. split; [exact P1|]. split; [exact R1|]. cbn. split; [lia|]. split; [lia|]. split.
    - intros r' q. cbn. rewrite get_set. destruct (Nat.eqb_spec r r'); [lia|]. apply F1.
    - intros r' Hr'. rewrite get_set_ne by lia. now apply H1.
  Qed.

  (** ** determine_pools_to_keep *)
  Definition copy_one (acc : world A * dict nat) (e : nat * nat) : res (world A * dict nat) :=
    let '(w, d) := acc in let '(id, r) := e in let! wr := deepcopy w r in let '(w', r') := wr in Ok (w', set d id r').
  Lemma copy_all_spec w0 : forall todo w d w' d', NoDup (map fst todo) -> (forall id, In id (map fst todo) -> ~ In id (keys d)) -> NoDup (keys d) ->
    hext w0 w -> w_idseq w = w_idseq w0 ->
    (forall id r, In (id, r) todo -> r < w_next w0) ->
    (forall id r, get d id = Some r -> w_next w0 <= r < w_next w) ->
    foldM copy_one todo (w, d) = Ok (w', d') ->
    hext w0 w' /\ hext w w' /\ w_idseq w' = w_idseq w0 /\ keys d' = keys d ++ map fst todo /\ (forall id, ~ In id (map fst todo) -> get d' id = get d id) /\
    forall id r, In (id, r) todo -> exists r' p, get d' id = Some r' /\ get (w_heap w0) r = Some p /\ get (w_heap w') r' = Some p /\ w_next w0 <= r' < w_next w'.
  Proof.
    induction todo as [|[id r] todo IH]; intros w d w' d' N D Nd X Es Ht Hd H; cbn in H.
    - injection H as <- <-. rewrite app_nil_r. split; [assumption|]. split; [apply hext_refl; apply X|]. repeat split; auto. intros ? ? [].
    - apply bind_ok in H as ([w1 d1] & H1 & H). apply bind_ok in H1 as ([w2 r2] & H1 & H2). injection H2 as <- <-.
      unfold deepcopy, deref in H1. apply bind_ok in H1 as (p & Hp & H1). apply of_option_ok in Hp.
      assert (E2 : w2 = fst (alloc w p) /\ r2 = w_next w) by (split; [now injection H1 | now injection H1]). clear H1. destruct E2 as [-> ->].
      cbn in N. apply NoDup_cons_iff in N as [N1 N].
      assert (X2 : hext w0 (fst (alloc w p))) by now apply hext_alloc.
      assert (X0 : hext w (fst (alloc w p))) by (apply hext_alloc, hext_refl, X).
      assert (Nn : w_next w0 <= w_next w) by apply X.
      assert (Kid : ~ In id (keys d)) by (apply D; now left).
      destruct (IH (fst (alloc w p)) (set d id (w_next w)) w' d') as (Y1 & Y0 & Y2 & Y3 & Y4 & Y5); auto.
      + intros id' Hi. rewrite keys_set_new by assumption. rewrite in_app_iff. cbn. intros [J|[->|[]]]; [now apply (D id'); [right|] | now apply N1].
      + now apply NoDup_set.
      + intros id' r' J. apply (Ht id' r'). now right.
      + intros id' r' J. cbn. rewrite get_set in J. destruct (Nat.eqb id id'); [injection J as <-; lia|]. apply Hd in J. lia.
      + split; [assumption|]. split; [eapply hext_trans; eassumption|]. split; [assumption|]. split; [rewrite Y3, keys_set_new by assumption; rewrite <- app_assoc; reflexivity|].
        assert (Gid : get d' id = Some (w_next w)) by (rewrite Y4 by assumption; apply get_set_eq).
        split.
        * intros id' J. cbn in J. rewrite Y4 by tauto. apply get_set_ne. intros ->. tauto.
        * intros id' r' [J|J].
          -- injection J as <- <-. exists (w_next w), p. split; [assumption|]. destruct X as (_ & _ & _ & _ & _ & X). rewrite <- X by (eapply Ht; now left).
             split; [assumption|]. destruct Y0 as (_ & _ & L & _ & _ & Y0). cbn in L. rewrite Y0 by (cbn; lia). cbn. rewrite get_set_eq. split; [reflexivity|]. lia.
          -- now apply Y5.
  Qed.

  Lemma insert_desc_perm (x : keep_key A) l : Permutation (insert_desc x l) (x :: l).
  Proof. induction l as [|y l IH]; cbn; [reflexivity|]. destruct (keep_ltb y x); [reflexivity|]. rewrite IH. apply perm_swap. Qed.
  Lemma sort_desc_perm (l : list (keep_key A)) : Permutation (sort_desc l) l.
  Proof. induction l as [|x l IH]; cbn; [reflexivity|]. now rewrite insert_desc_perm, IH. Qed.

  Lemma pools_to_keep_spec w ag st n w' d : fresh_ok w -> a_strategy ag = Some st -> NoDup (keys (s_owned st)) ->
    (forall id r, get (s_owned st) id = Some r -> r < w_next w) ->
    pools_to_keep so w ag n = Ok (w', d) ->
    hext w w' /\ w_idseq w' = w_idseq w /\ NoDup (keys d) /\ incl (keys d) (keys (s_owned st)) /\
    ((0 <= n)%Z -> length d = Nat.min (Z.to_nat n) (length (s_owned st))) /\
    (forall id r, get d id = Some r -> exists r0 p, get (s_owned st) id = Some r0 /\ get (w_heap w) r0 = Some p /\ get (w_heap w') r = Some p /\ w_next w <= r < w_next w').
  Proof.
    intros F Hst Nd Hr H. unfold pools_to_keep in H. unfold the_strategy in H. rewrite Hst in H. cbn [of_option bind] in H.
    change (fun (acc : world A * dict nat) (e : nat * nat) => let '(w, d) := acc in let '(id, r) := e in let! wr := deepcopy w r in let '(w', r') := wr in Ok (w', set d id r')) with copy_one in H.
    assert (G : forall todo, NoDup (map fst todo) -> (forall id r, In (id, r) todo -> get (s_owned st) id = Some r) -> length todo = Nat.min (Z.to_nat n) (length (s_owned st)) \/ (n < 0)%Z ->
              foldM copy_one todo (w, []) = Ok (w', d) -> 
    hext w w' /\ w_idseq w' = w_idseq w /\ NoDup (keys d) /\ incl (keys d) (keys (s_owned st)) /\
    ((0 <= n)%Z -> length d = Nat.min (Z.to_nat n) (length (s_owned st))) /\
    (forall id r, get d id = Some r -> exists r0 p, get (s_owned st) id = Some r0 /\ get (w_heap w) r0 = Some p /\ get (w_heap w') r = Some p /\ w_next w <= r < w_next w')).
    { intros todo Nt Ht Hl Hf. eapply (copy_all_spec w) in Hf as (X & _ & Es & Ek & _ & Hg); auto; [| constructor | now apply hext_refl | intros; eapply Hr, Ht; eassumption | intros ? ? [=]].
      cbn [app keys map] in Ek. split; [assumption|]. split; [assumption|]. change (keys d = map fst todo) in Ek. rewrite Ek. split; [assumption|]. split.
      - intros id Hi. apply in_map_iff in Hi as ([id' r] & <- & Hi). apply get_Some_key. exists r. now apply Ht.
      - split; [|].
        + intros Hn. destruct Hl as [Hl|]; [|lia]. rewrite <- Hl. rewrite <- (map_length fst d). change (map fst d) with (keys d). rewrite Ek. apply map_length.
        + intros id r Gd. assert (Hi : In id (keys d)) by (apply get_Some_key; eauto). rewrite Ek in Hi. apply in_map_iff in Hi as ([id' r0] & E & Hi). cbn in E. subst id'.
          destruct (Hg id r0 Hi) as (r' & p & J1 & J2 & J3 & J4). rewrite Gd in J1. injection J1 as <-. exists r0, p. split; [now apply Ht|]. auto. }
    destruct (Z.ltb_spec n (Z.of_nat (length (s_owned st)))).
    - apply bind_ok in H as (props & Hp & H). apply bind_ok in H as (todo & Ht & H).
      assert (Eids : map (fun x => snd x) props = keys (s_owned st)).
      { apply mapM_ok in Hp. clear -Hp. induction Hp as [|[id r] x l l' Hx Hp IH]; [reflexivity|]. cbn [map keys]. change (map fst l) with (keys l). rewrite IH. f_equal.
        apply bind_ok in Hx as (p & _ & Hx). injection Hx as <-. reflexivity. }
      set (ids := map (fun x : num * num * num * nat => snd x) (nlargest (Z.to_nat n) props)) in *.
      assert (Inc : exists rest, Permutation (ids ++ rest) (keys (s_owned st))).
      { exists (map (fun x : keep_key A => snd x) (skipn (Z.to_nat n) (sort_desc props))). unfold ids, nlargest. rewrite <- map_app, firstn_skipn, <- Eids.
        apply Permutation_map, sort_desc_perm. }
      assert (Nids : NoDup ids). { destruct Inc as (rest & P). symmetry in P. eapply Permutation_NoDup in P; [|exact Nd]. clear -P. induction ids as [|x l IH]; [constructor|]. cbn in P. apply NoDup_cons_iff in P as [P1 P2]. constructor; [|now apply IH]. intros J. apply P1, in_app_iff. now left. }
      assert (Et : Forall2 (fun id e => fst e = id /\ get (s_owned st) id = Some (snd e)) (so ids ids) todo).
      { apply mapM_ok in Ht. clear -Ht. revert Ht. generalize (so ids ids) as l0. intros l0 Ht. induction Ht as [|id e l l' Hx Ht IH]; constructor; [|assumption]. apply bind_ok in Hx as (r & Hr & Hx). apply of_option_ok in Hr. injection Hx as <-. now split. }
      assert (Ef : map fst todo = so ids ids). { clear -Et. revert Et. generalize (so ids ids) as l0. intros l0 Et. induction Et as [|id e l l' [E _] _ IH]; [reflexivity|]. cbn. congruence. }
      apply (G todo); [rewrite Ef; apply so_nodup; assumption | | | exact H].
      + intros id r Hi. clear -Et Hi. revert Et. generalize (so ids ids) as l0. intros l0 Et. induction Et as [|id' e l l' [E1 E2] _ IH]; [destruct Hi|]. destruct Hi as [->|Hi]; [cbn in *; congruence | now apply IH].
      + destruct (Z.ltb_spec n 0); [now right | left]. rewrite <- (map_length fst todo), Ef, (Permutation_length (so_perm _ _)). unfold ids, nlargest.
        rewrite map_length, firstn_length, (Permutation_length (sort_desc_perm props)). f_equal. assert (EL := f_equal (@length nat) Eids). unfold keys in EL. rewrite !map_length in EL. exact EL.
    - apply (G (s_owned st)); [assumption | | | exact H].
      + intros id r Hi. now apply In_get.
      + left. rewrite Nat.min_r; [reflexivity | lia].
  Qed.

  (** ** the pools of a candidate strategy *)
  Lemma margin_at_src w ag ms i p mg : Forall margin_src ms -> i < length ms -> margin_at w ag ms i p = Ok mg -> margin_src mg.
  Proof.
    intros F Hi H. unfold margin_at in H. destruct (nth_error ms i) eqn:E.
    - injection H as <-. rewrite Forall_forall in F. apply F. eapply nth_error_In; eassumption.
    - apply nth_error_None in E. lia.
  Qed.

  (** [p] is a pool with the given parameters, priced by the code *)
  Definition priced (rs : rss A) (pledge cost : num) p : Prop :=
    p_pledge p = pledge /\ p_cost p = cost /\ p_private p = leb (pool_threshold rs pledge) pledge /\ potential_profit rs pledge cost = Ok (p_pp p) /\
    p_des p = desirability (p_margin p) (p_pp p) /\ margin_src (p_margin p).

  Lemma adjust_spec w ag pledge cost ms i p p' : Forall margin_src ms -> i < length ms -> adjust_pool w ag pledge cost ms i p = Ok p' ->
    priced (w_rss w) pledge cost p' /\ p_id p' = p_id p /\ p_owner p' = p_owner p /\ p_delegators p' = p_delegators p /\ p_stake p' = sub (p_stake p) (sub (p_pledge p) pledge).
  Proof.
    intros F Hi H. unfold adjust_pool, pool_set_profit in H. inv_all. subst p'. cbn in *. subst. cbn. apply margin_at_src in E0; [|assumption|assumption].
    split; [|repeat split]. repeat split; assumption.
  Qed.
  Lemma draft_spec w ag pledge cost ms i id p : Forall margin_src ms -> i < length ms -> draft_pool w ag pledge cost ms i id = Ok p ->
    priced (w_rss w) pledge cost p /\ p_id p = id /\ p_owner p = a_id ag /\ p_delegators p = [] /\ p_stake p = pledge.
  Proof.
    intros F Hi H. unfold draft_pool, new_pool in H. inv_all. subst p. cbn in *. subst. cbn. apply margin_at_src in E0; [|assumption|assumption].
    split; [|repeat split]. repeat split; assumption.
  Qed.

  Definition made (ag : agent A) (st : strategy A) (pledge cost : num) (w0 w : world A) (id r : nat) : Prop :=
    w_next w0 <= r < w_next w /\ exists p, get (w_heap w) r = Some p /\ p_id p = id /\ p_owner p = a_id ag /\ priced (w_rss w0) pledge cost p /\
      match get (s_owned st) id with
      | Some r0 => exists p0, get (w_heap w0) r0 = Some p0 /\ p_stake p = sub (p_stake p0) (sub (p_pledge p0) pledge) /\ p_delegators p = p_delegators p0
      | None => w_idseq w0 < id <= w_idseq w /\ p_stake p = pledge /\ p_delegators p = []
      end.
  Lemma made_ext ag st pledge cost w0 w w' id r : made ag st pledge cost w0 w id r -> hext w w' -> made ag st pledge cost w0 w' id r.
  Proof.
    intros (R & p & G & H1 & H2 & H3 & H4) (P & Rm & N & S & F & E). split; [lia|]. exists p. rewrite E by lia. repeat (split; [assumption|]).
    destruct (get (s_owned st) id); [assumption|]. destruct H4. split; [lia | assumption].
  Qed.

  Definition adjust_one (ag : agent A) (pledge cost : num) (ms : list num) (acc : world A * nat) (e : nat * nat) : res (world A * nat) :=
    let '(w, i) := acc in let! p := deref w (snd e) in let! p' := adjust_pool w ag pledge cost ms i p in Ok (store w (snd e) p', S i).
  Lemma adjust_all_spec w0 ag pledge cost ms : Forall margin_src ms -> forall owned w i w' i', NoDup (map snd owned) -> hext w0 w ->
    (forall id r, In (id, r) owned -> w_next w0 <= r < w_next w) -> i + length owned <= length ms -> foldM (adjust_one ag pledge cost ms) owned (w, i) = Ok (w', i') ->
    hext w0 w' /\ w_next w' = w_next w /\ w_idseq w' = w_idseq w /\ (forall r, ~ In r (map snd owned) -> get (w_heap w') r = get (w_heap w) r) /\
    forall id r, In (id, r) owned -> exists p p', get (w_heap w) r = Some p /\ get (w_heap w') r = Some p' /\
      priced (w_rss w0) pledge cost p' /\ p_id p' = p_id p /\ p_owner p' = p_owner p /\ p_delegators p' = p_delegators p /\ p_stake p' = sub (p_stake p) (sub (p_pledge p) pledge).
  Proof.
    intros F. induction owned as [|[id r] owned IH]; intros w i w' i' N X Hr Hi H; cbn in H; cbn in Hi.
    - injection H as <- <-. repeat split; auto; try apply X. intros ? ? [].
    - apply bind_ok in H as ([w1 i1] & H1 & H). apply bind_ok in H1 as (p & Hp & H1). unfold deref in Hp. apply of_option_ok in Hp. cbn [snd] in Hp, H1.
      apply bind_ok in H1 as (p' & Ha & H1). injection H1 as <- <-. apply NoDup_cons_iff in N as [N1 N]. cbn [snd] in N1.
      destruct (IH (store w r p') (S i) w' i' N (hext_store _ _ r p' X (Hr _ _ (or_introl eq_refl)))) as (Y1 & Y2 & Y3 & Y4 & Y5).
      + intros id' r' J. cbn. apply (Hr id'). now right.
      + lia.
      + exact H.
      + split; [assumption|]. split; [assumption|]. split; [assumption|]. split.
        * intros r' J. cbn in J. rewrite Y4 by tauto. cbn. apply get_set_ne. tauto.
        * intros id' r' [J|J].
          -- injection J as <- <-. exists p, p'. split; [assumption|]. rewrite Y4 by assumption. cbn. rewrite get_set_eq. split; [reflexivity|].
             destruct X as ((Er & _) & _). rewrite <- Er. apply (adjust_spec _ _ _ _ _ _ _ _ F) in Ha; [assumption | lia].
          -- destruct (Y5 id' r' J) as (q & q' & G & ?). exists q, q'. split; [|assumption]. cbn in G. rewrite get_set_ne in G; [assumption|].
             intros <-. apply N1. change r with (snd (id', r)). now apply in_map.
  Qed.

  Definition draft_one (ag : agent A) (pledge cost : num) (ms : list num) (acc : world A * dict nat) (i : nat) : res (world A * dict nat) :=
    let '(w, d) := acc in let '(w', id) := next_pool_id w in let! p := draft_pool w' ag pledge cost ms i id in
    let '(w'', r) := alloc w' p in Ok (w'', set d id r).
  Lemma draft_all_spec w0 ag st pledge cost ms : Forall margin_src ms -> (forall id, In id (keys (s_owned st)) -> id <= w_idseq w0) ->
    forall l w d w' d', (forall i, In i l -> i < length ms) -> NoDup (keys d) -> hext w0 w -> (forall id r, get d id = Some r -> made ag st pledge cost w0 w id r) ->
    foldM (draft_one ag pledge cost ms) l (w, d) = Ok (w', d') ->
    hext w0 w' /\ NoDup (keys d') /\ (forall id r, get d' id = Some r -> made ag st pledge cost w0 w' id r) /\ length d' = length d + length l.
  Proof.
    intros F Hk. induction l as [|i l IH]; intros w d w' d' Hl N X Hd H; cbn in H.
    - injection H as <- <-. split; [assumption|]. split; [assumption|]. split; [assumption | cbn; lia].
    - apply bind_ok in H as (acc & H1 & H). apply bind_ok in H1 as (p & Hp & H1). injection H1 as <-.
      set (w1 := with_idseq (S (w_idseq w)) w) in *. change (mkWorld _ _ _ _ _ _ _ _ _ _ _ _ _ _) with (fst (alloc w1 p)) in H.
      assert (X1 : hext w0 w1) by now apply hext_idseq. assert (X2 : hext w0 (fst (alloc w1 p))) by now apply hext_alloc.
      assert (Xs : hext w (fst (alloc w1 p))) by (apply hext_alloc, hext_idseq, hext_refl, X).
      destruct (draft_spec _ _ _ _ _ _ _ _ F (Hl i (or_introl eq_refl)) Hp) as (Q1 & Q2 & Q3 & Q4 & Q5).
      assert (Ls : w_idseq w0 <= w_idseq w) by apply X. assert (Ln : w_next w0 <= w_next w) by apply X.
      assert (Gn : get (s_owned st) (S (w_idseq w)) = None). { apply get_None. intros J. apply Hk in J. lia. }
      assert (Kn : ~ In (S (w_idseq w)) (keys d)).
      { intros J. apply get_Some_key in J as (r & J). destruct (Hd _ _ J) as (_ & q & _ & _ & _ & _ & K). rewrite Gn in K. lia. }
      apply IH in H as (Y1 & Y2 & Y3 & Y4).
      + split; [assumption|]. split; [assumption|]. split; [assumption|]. rewrite Y4. cbn [length].
        rewrite set_new by assumption. rewrite app_length. cbn. lia.
      + intros; apply Hl; now right.
      + now apply NoDup_set.
      + assumption.
      + intros id r. rewrite get_set. destruct (Nat.eqb_spec (S (w_idseq w)) id) as [<-|Ne].
        * intros [= <-]. split; [cbn; lia|]. exists p. cbn [alloc fst w_heap]. rewrite get_set_eq. split; [reflexivity|]. split; [assumption|]. split; [assumption|].
          split; [destruct X as ((Er & _) & _); rewrite <- Er; exact Q1|]. rewrite Gn. cbn. split; [lia|]. now split.
        * intros G. eapply made_ext; [now apply Hd | assumption].
  Qed.

  (** ** the state after an evaluation *)
  Variable NP : rss A -> pool A -> Prop.
  Variable PVT : Prop.
  Hypothesis NP_upd : forall rs p v a, NP rs p -> NoDup (keys (p_delegators p)) -> v = zero \/ ltb v min_stake_unit = false -> NP rs (update_delegation v a p).
  Notation Inv := (Inv NP PVT).
  Hypothesis TG_d : forall mg pp, TG (add (desirability mg pp) boost).
  Hypothesis TG_z : TG (add zero boost) /\ TG (pmax (add zero boost) zero).
  Hypothesis TG_np : forall rs p y, NP rs p -> TG (pmax (add (p_des p) boost) y).

  (** everything is as before except other agents' pools' stakes, the orders of the delegators, the myopic ranking, and new objects *)
  Definition efr (uid : nat) (w w' : world A) : Prop :=
    params_eq w w' /\ w_next w <= w_next w' /\ w_idseq w <= w_idseq w' /\
    (forall r p, get (w_heap w) r = Some p -> exists p', get (w_heap w') r = Some p' /\ same_static p p') /\
    (forall r, r < w_next w -> (forall id, get (w_pools w) id = Some r -> exists p, get (w_heap w) r = Some p /\ p_owner p = uid) -> get (w_heap w') r = get (w_heap w) r).
  Lemma same_static_refl p : same_static p p. Proof. unfold same_static. now destruct p. Qed.
  Lemma same_static_trans p p1 p2 : same_static p p1 -> same_static p1 p2 -> same_static p p2.
  Proof. unfold same_static. intros -> H2. rewrite H2. cbn. reflexivity. Qed.
  Lemma hext_efr uid w w' : fresh_ok w -> hext w w' -> efr uid w w'.
  Proof.
    intros F (P & R & N & S & F' & H). split; [assumption|]. split; [assumption|]. split; [assumption|]. split.
    - intros r p G. exists p. rewrite H by (eapply F; eassumption). split; [assumption | apply same_static_refl].
    - intros r Hr _. now apply H.
  Qed.
  Lemma efr_trans uid w w1 w2 : efr uid w w1 -> efr uid w1 w2 -> efr uid w w2.
  Proof.
    intros (P1 & N1 & S1 & T1 & H1) (P2 & N2 & S2 & T2 & H2). split; [eapply params_eq_trans; eassumption|]. split; [lia|]. split; [lia|]. split.
    - intros r p G. destruct (T1 r p G) as (p1 & G1 & E1). destruct (T2 r p1 G1) as (p2 & G2 & E2). exists p2. split; [assumption | eapply same_static_trans; eassumption].
    - intros r Hr Ho. rewrite H2; [now apply H1 | lia |]. intros id G. destruct P1 as (_ & _ & _ & _ & _ & _ & _ & Ep & _). rewrite Ep in G. rewrite H1 by assumption. now apply (Ho id).
  Qed.
  Lemma hext_inv m al ow w w' : Inv m al ow w -> hext w w' -> Inv m al ow w'.
  Proof.
    intros I (P & R & N & S & F & H). destruct P as (P1 & _ & _ & _ & _ & _ & _ & P8 & P9 & _). eapply Inv_frame; try eassumption.
    intros id r G. apply H. eapply Inv_reg_fresh; eassumption.
  Qed.

  Lemma restore_spec m al ow uid st w w1 w2 : Inv m al ow w -> (forall id, al uid id = get (s_alloc st) id) -> NoDup (keys (s_alloc st)) ->
    touches uid (zeros (keys (s_alloc st))) w = Ok w1 -> touches uid (s_alloc st) w1 = Ok w2 ->
    Inv m (touched_al uid (zeros (keys (s_alloc st))) al) ow w1 /\ tframe (keys (s_alloc st)) w w1 /\
    Inv m al ow w2 /\ efr uid w w2 /\ w_next w2 = w_next w /\ w_idseq w2 = w_idseq w.
  Proof.
    intros I Eal N H1 H2.
    assert (I1 := zeros_inv O MP NP PVT NP_upd m _ _ uid _ w w1 I H1). assert (F1 := touches_frame uid _ _ _ H1). assert (F2 := touches_frame uid _ _ _ H2).
    change (map fst (zeros (keys (s_alloc st)))) with (keys (zeros (A := A) (keys (s_alloc st)))) in F1. rewrite zeros_keys in F1. change (map fst (s_alloc st)) with (keys (s_alloc st)) in F2.
    assert (E1 := tframe_fields _ _ _ F1). destruct E1 as (Er1 & _ & _ & _ & _ & _ & Ea1 & En1 & Ep1 & _ & Es1 & _).
    assert (Own : forall id, In id (keys (s_alloc st)) -> exists r p, get (w_pools w) id = Some r /\ get (w_heap w) r = Some p /\ p_owner p <> uid /\ (PVT -> p_private p = false)).
    { intros id Hi. apply get_Some_key in Hi as (v & G). rewrite <- Eal in G. destruct (i_al _ _ _ _ _ _ I _ _ _ G) as (_ & r & p & J1 & J2 & J3). exists r, p. repeat (split; [assumption|]).
      intros V. destruct (p_private p) eqn:E; [|reflexivity]. destruct (i_reg _ _ _ _ _ _ I _ _ J1) as (p' & G' & _ & _ & _ & _ & _ & Hp). rewrite J2 in G'. injection G' as <-.
      apply (i_del _ _ _ _ _ _ I _ _ _ _ _ J1 J2) in G. rewrite (Hp V E) in G. discriminate. }
    assert (I2 : Inv m (touched_al uid (s_alloc st) (touched_al uid (zeros (keys (s_alloc st))) al)) ow w2).
    { eapply touches_inv; [exact O | exact MP | exact NP_upd | exact I1 | exact H2 | |].
      - intros id v J. right. apply (In_get _ _ _ N) in J. rewrite <- Eal in J. now destruct (i_al _ _ _ _ _ _ I _ _ _ J).
      - intros id v r p J _ G1 G2. destruct (Own id) as (r0 & p0 & J1 & J2 & J3 & J4); [change id with (fst (id, v)); now apply in_map|].
        rewrite Ep1 in G1. rewrite J1 in G1. injection G1 as <-. destruct F1 as (_ & _ & F1). destruct (F1 r0 p0 J2) as (p' & J5 & J6). rewrite G2 in J5. injection J5 as <-.
        unfold same_static in J6. rewrite J6. cbn. now split. }
    assert (F := tframe_trans _ _ _ _ _ F1 F2). assert (E := tframe_fields _ _ _ F). destruct E as (Er & Erel & Eabs & Ephi & Esim & Etot & Ea & En & Ep & Erk & Es & Eidle).
    split; [assumption|]. split; [assumption|]. split.
    - eapply Inv_ext; [| |exact I2]; [|reflexivity]. intros a id. destruct (Nat.eq_dec a uid) as [->|Ne]; [|now rewrite !touched_al_other].
      rewrite touched_al_self by assumption. rewrite Eal. destruct (get (s_alloc st) id) as [v|] eqn:G.
      + rewrite <- Eal in G. now destruct (i_al _ _ _ _ _ _ I _ _ _ G) as (-> & _).
      + rewrite touched_zeros by assumption. destruct (inb id (keys (s_alloc st))); [reflexivity | now rewrite Eal].
    - split; [|now split]. split; [repeat split; assumption|]. split; [lia|]. split; [lia|]. destruct F as (_ & F & F'). split; [assumption|].
      intros r _ Ho. apply F. intros id Hi G. destruct (Own id) as (r0 & p0 & J1 & J2 & J3 & _); [apply in_app_iff in Hi; tauto|]. destruct (Ho id G) as (p & G' & Eo). apply J3.
      rewrite J1 in G. injection G as ->. congruence.
  Qed.

  (** delegations to registered public pools of others, none below the minimum *)
  Definition alloc_ok (w : world A) (uid : nat) (d : dict num) : Prop :=
    NoDup (keys d) /\ forall id v, get d id = Some v -> ltb v min_stake_unit = false /\
      exists r p, get (w_pools w) id = Some r /\ get (w_heap w) r = Some p /\ p_owner p <> uid /\ p_private p = false.
  Lemma alloc_ok_efr uid w w' d : efr uid w w' -> alloc_ok w uid d -> alloc_ok w' uid d.
  Proof.
    intros (P & _ & _ & T & _) [N H]. split; [assumption|]. intros id v G. destruct (H id v G) as (J1 & r & p & J2 & J3 & J4 & J5). split; [assumption|].
    destruct (T r p J3) as (p' & G' & E). exists r, p'. destruct P as (_ & _ & _ & _ & _ & _ & _ & Ep & _). rewrite Ep. unfold same_static in E. rewrite E. cbn. rewrite <- E. auto.
  Qed.
  Lemma alloc_ok_nil w uid : alloc_ok w uid []. Proof. split; [constructor | intros ? ? [=]]. Qed.

  (** the pools a delegator considers: other agents' public pools, in the order of the agent's ranking *)
  Definition candidates (w : world A) (uid : nat) (l : sl A) (pools : list (pool A)) : Prop :=
    exists refs, Forall2 (fun r p => get (w_heap w) r = Some p) refs pools /\
      map Some refs = filter (fun e => match e with Some r => match get (w_heap w) r with Some p => negb (Nat.eqb (p_owner p) uid) && negb (p_private p) | None => false end | None => false end) (sl_elems l).

  Lemma rank_refs m al ow w ag rk : Inv m al ow w -> rankings w ag = Ok rk -> exists K, rank_ok K (w_heap w) m (values (w_pools w)) rk.
  Proof. intros I H. unfold rankings in H. destruct (a_profile ag); [injection H as <-; eexists; apply (i_rank _ _ _ _ _ _ I) | injection H as <-; eexists; apply (i_rankm _ _ _ _ _ _ I) | discriminate]. Qed.

  Lemma map_Some_ex (l : list (option nat)) : (forall e, In e l -> e <> None) -> exists refs, l = map Some refs.
  Proof.
    induction l as [|e l IH]; intros H; [exists []; reflexivity|]. destruct IH as (refs & ->); [intros; apply H; now right|].
    destruct e as [r|]; [exists (r :: refs); reflexivity | exfalso; apply (H None); [now left | reflexivity]].
  Qed.

  Lemma NoDup_repeat_some m refs : NoDup refs -> forall l, Permutation l (repeat None m ++ map Some refs) -> forall f l', l' = filter f l -> (forall e, In e l' -> e <> None) -> NoDup (l' : list (option nat)).
  Proof.
    intros N l P f l' -> H. assert (Q : Permutation (filter f l) (filter f (repeat None m ++ map Some refs))) by now apply filter_perm.
    eapply Permutation_NoDup; [symmetry; exact Q|]. rewrite filter_app. replace (filter f (repeat None m)) with (@nil (option nat)).
    - cbn. apply NoDup_filter'. apply NoDup_map_inj; [congruence | assumption].
    - symmetry. destruct (filter f (repeat None m)) as [|e l0] eqn:E; [reflexivity|]. exfalso. assert (J : In e (filter f (repeat None m))) by (rewrite E; now left).
      assert (J' := J). apply filter_In in J' as [J' _]. apply repeat_spec in J'. apply (H e); [|assumption]. eapply Permutation_in; [symmetry; exact Q|]. rewrite filter_app. apply in_app_iff. now left.
  Qed.

  Lemma stake_allocations_spec m al ow w ag st s w' d : Inv m al ow w -> a_strategy ag = Some st -> (forall id, al (a_id ag) id = get (s_alloc st) id) -> NoDup (keys (s_alloc st)) ->
    stake_allocations w ag s = Ok (w', d) ->
    Inv m al ow w' /\ efr (a_id ag) w w' /\ w_next w' = w_next w /\ w_idseq w' = w_idseq w /\
    match d with
    | None => w' = w /\ exists rk, rankings w ag = Ok rk /\ candidates w (a_id ag) rk []
    | Some d' => exists w1 rk pools, touches (a_id ag) (zeros (keys (s_alloc st))) w = Ok w1 /\ touches (a_id ag) (s_alloc st) w1 = Ok w' /\
        rankings w ag = Ok rk /\ candidates w1 (a_id ag) rk pools /\ NoDup (map p_id pools) /\ d' = greedy_allocations (w_rss w) pools s /\
        (ltb s min_stake_unit = false -> alloc_ok w' (a_id ag) d')
    end.
  Proof.
    intros I Hst Eal N H. unfold stake_allocations in H. apply bind_ok in H as (rk & Hrk & H). apply bind_ok in H as (el & Hel & H).
    set (g := fun w e => match e with Some r => match get (w_heap w) r with Some p => negb (Nat.eqb (p_owner p) (a_id ag)) && negb (p_private p) | None => false end | None => false end).
    destruct (rank_refs _ _ _ _ _ _ I Hrk) as (K & R).
    assert (Rel : forall r, In (Some r) (sl_elems rk) -> In r (values (w_pools w))).
    { intros r J. apply in_map_iff in J as ([k e] & E & J). cbn in E. subst e. eapply rank_ok_elem; eassumption. }
    assert (Reg : forall r, In r (values (w_pools w)) -> exists id p, get (w_pools w) id = Some r /\ get (w_heap w) r = Some p /\ p_id p = id).
    { intros r J. apply In_values in J as (id & J); [|apply (i_nd _ _ _ _ _ _ I)]. destruct (i_reg _ _ _ _ _ _ I _ _ J) as (p & G & E & _). eauto. }
    assert (Hel' : el = filter (g w) (sl_elems rk)).
    { erewrite filterM_pure in Hel; [injection Hel as <-; reflexivity|]. intros e J. destruct e as [r|]; [|reflexivity]. cbn. unfold deref.
      destruct (Reg r (Rel r J)) as (id & p & _ & G & _). rewrite G. reflexivity. }
    destruct el as [|e0 el0] eqn:Ee.
    { injection H as <- <-. split; [assumption|]. split; [apply hext_efr; [exact (i_fresh _ _ _ _ _ _ I)|]; apply hext_refl; exact (i_fresh _ _ _ _ _ _ I)|].
      split; [reflexivity|]. split; [reflexivity|]. split; [reflexivity|]. exists rk. split; [assumption|]. exists []. split; [constructor | exact Hel']. }
    rewrite <- Ee in *. clear Ee e0 el0. unfold the_strategy in H. rewrite Hst in H. cbn [of_option bind] in H.
    apply bind_ok in H as (w1 & H1 & H). rewrite touches_zeros_keys in H1. apply bind_ok in H as (pools & Hp & H). apply bind_ok in H as (w2 & H2 & H). change (touches (a_id ag) (s_alloc st) w1 = Ok w2) in H2.
    injection H as <- <-.
    destruct (restore_spec m al ow (a_id ag) st w w1 w2 I Eal N H1 H2) as (I1 & F1 & I2 & X & En & Es).
    split; [assumption|]. split; [assumption|]. split; [assumption|]. split; [assumption|]. exists w1, rk, pools. split; [assumption|]. split; [assumption|]. split; [assumption|].
    assert (Hs : forall e, In e el -> e <> None) by (intros e J -> ; rewrite Hel' in J; apply filter_In in J as [_ J]; discriminate).
    destruct (map_Some_ex el Hs) as (refs & Er).
    assert (Ep : Forall2 (fun r p => get (w_heap w1) r = Some p) refs pools).
    { apply mapM_ok in Hp. rewrite Er in Hp. clear -Hp. remember (map Some refs) as l. revert refs Heql. induction Hp as [|e p l l' H1 Hp IH]; intros refs E; destruct refs as [|r refs]; try discriminate; constructor.
      - injection E as -> ->. unfold deref in H1. now apply of_option_ok in H1.
      - apply IH. now injection E. }
    assert (Stat : forall r, In r refs -> exists id p p1, get (w_pools w) id = Some r /\ get (w_heap w) r = Some p /\ get (w_heap w1) r = Some p1 /\ same_static p p1 /\ p_id p = id /\ p_owner p <> a_id ag /\ p_private p = false).
    { intros r J. assert (J' : In (Some r) el) by (rewrite Er; now apply in_map). rewrite Hel' in J'. apply filter_In in J' as [J1 J2]. destruct (Reg r (Rel r J1)) as (id & p & G1 & G2 & G3).
      destruct F1 as (_ & _ & F1). destruct (F1 r p G2) as (p1 & G4 & G5). exists id, p, p1. cbn in J2. rewrite G2 in J2. apply andb_true_iff in J2 as [J2 J3]. apply negb_true_iff in J2, J3. apply Nat.eqb_neq in J2. auto 10. }
    assert (C : candidates w1 (a_id ag) rk pools).
    { exists refs. split; [assumption|]. rewrite <- Er, Hel'. apply filter_ext_in. intros e J. destruct e as [r|]; [|reflexivity]. cbn.
      destruct (Reg r (Rel r J)) as (id & p & G1 & G2 & G3). destruct F1 as (_ & _ & F1). destruct (F1 r p G2) as (p1 & G4 & G5). rewrite G2, G4. unfold same_static in G5. rewrite G5. reflexivity. }
    split; [assumption|].
    assert (Nr : NoDup refs).
    { assert (NN : NoDup el). { destruct R as (_ & P & _). eapply NoDup_repeat_some; [|exact P | exact Hel' | exact Hs]. eapply Inv_refs_nodup; eassumption. }
      rewrite Er in NN. now apply NoDup_map_inv in NN. }
    assert (Np : NoDup (map p_id pools)).
    { assert (Q' : Forall2 (fun r p => get (w_pools w) (p_id p) = Some r) refs pools).
      { clear -Ep Stat. induction Ep as [|r p l l' G Ep IH]; constructor.
        - destruct (Stat r (or_introl eq_refl)) as (id & q & q1 & J1 & _ & J2 & J3 & J4 & _). rewrite G in J2. injection J2 as <-. unfold same_static in J3. rewrite J3. cbn. congruence.
        - apply IH. intros; apply Stat; now right. }
      clear -Q' Nr.
      induction Q' as [|r p l l' G Q IH]; [constructor|]. apply NoDup_cons_iff in Nr as [N1 N2]. cbn. constructor; [|now apply IH]. intros J. apply N1. clear -Q J G. induction Q as [|r' p' l l' G' Q IH]; [destruct J|].
      cbn in J. destruct J as [J|J]; [left; congruence | right; now apply IH]. }
    split; [assumption|]. destruct F1 as (F1a & F1b & F1c). assert (Rss : w_rss w1 = w_rss w) by (rewrite F1a; reflexivity). rewrite Rss. split; [reflexivity|].
    intros Hsm. destruct (greedy_keys (w_rss w) pools s Np) as [K1 K2]. split; [assumption|]. intros id v G. split; [eapply greedy_min; eassumption|].
    assert (J : In id (map p_id pools)) by (apply K2, get_Some_key; eauto). apply in_map_iff in J as (p & Ei & J).
    assert (exists r, In r refs /\ get (w_heap w1) r = Some p) as (r & J1 & J2).
    { clear -Ep J. induction Ep as [|r q l l' G Ep IH]; [destruct J|]. destruct J as [->|J]; [exists r; split; [now left | assumption] | destruct (IH J) as (r' & ? & ?); exists r'; split; [now right | assumption]]. }
    destruct (Stat r J1) as (id' & p0 & p1 & S1 & S2 & S3 & S4 & S5 & S6 & S7). rewrite J2 in S3. injection S3 as <-. destruct X as (P & _ & _ & T & _). destruct (T r p0 S2) as (p2 & G2 & E2).
    exists r, p2. destruct P as (_ & _ & _ & _ & _ & _ & _ & Epo & _). rewrite Epo. split; [|split; [assumption|]].
    - unfold same_static in S4. rewrite S4 in Ei. cbn in Ei. congruence.
    - unfold same_static in E2. rewrite E2. cbn. now split.
  Qed.

  Lemma margins_src m al ow w ag n ms u : Inv m al ow w -> margins_and_utility w ag n = Ok (ms, u) -> Forall margin_src ms /\ ((0 <= n)%Z -> length ms = Z.to_nat n).
  Proof.
    intros I H. unfold margins_and_utility in H.
    assert (G : forall (g : list num * num -> Z -> res (list num * num)) l acc r,
        (forall acc t r, g acc t = Ok r -> exists m, margin_src m /\ fst r = fst acc ++ [m]) -> foldM g l acc = Ok r -> Forall margin_src (fst acc) ->
        Forall margin_src (fst r) /\ length (fst r) = length (fst acc) + length l).
    { intros g l. induction l as [|t l IH]; intros acc r Hg Hf Ha; cbn in Hf.
      - injection Hf as <-. split; [assumption | cbn; lia].
      - apply bind_ok in Hf as (acc1 & H1 & Hf). destruct (Hg _ _ _ H1) as (mm & Hm & E).
        destruct (IH acc1 r Hg Hf) as [I1 I2]; [rewrite E; apply Forall_app; split; [assumption | now constructor]|].
        split; [assumption|]. rewrite I2, E, app_length. cbn. lia. }
    assert (Fix : forall fixed x i, fixed_pools_ranked w ag = Ok fixed -> py_index fixed i = Ok (Some x) -> forall p, deref w x = Ok p -> NP (w_rss w) p).
    { intros fixed x i Hf Hi p Hp. unfold fixed_pools_ranked in Hf. apply bind_ok in Hf as (rk & Hrk & Hf). destruct (rank_refs _ _ _ _ _ _ I Hrk) as (K & R).
      assert (J : In (Some x) (sl_elems rk)). { eapply filterM_sub; [exact Hf|]. eapply py_index_In; exact Hi. }
      apply in_map_iff in J as ([k e] & E & J). cbn in E. subst e. apply (rank_ok_elem _ _ _ _ _ _ _ R) in J. apply In_values in J as (id & J); [|apply (i_nd _ _ _ _ _ _ I)].
      destruct (i_reg _ _ _ _ _ _ I _ _ J) as (q & J1 & J2 & J3 & J4 & J5 & J6 & _). unfold deref in Hp. apply of_option_ok in Hp. congruence. }
    destruct (a_profile ag); [| |discriminate].
    - inv_all. match goal with K : foldM _ _ _ = Ok (ms, u) |- _ => apply G in K; [|intros [ms0 u0] t r K2 | constructor] end.
      + cbn [fst length] in *. rewrite zrange_length in *. destruct H. split; [assumption|]. intros. lia.
      + inv_all. match type of K2 with (if ?b then _ else _) = _ => destruct b end.
        * inv_all. subst r. exists zero. split; [now left | reflexivity].
        * inv_all. subst r. eexists. split; [right; do 2 eexists; split; [|eassumption] | reflexivity].
          match goal with K : match ?v with Some _ => _ | None => _ end = Ok _ |- _ => destruct v; [|injection K as <-; exact (proj2 TG_z)] end.
          inv_all. subst. cbn [fst snd]. eapply TG_np. eapply Fix; [first [eassumption | reflexivity] | eassumption | eassumption].
    - inv_all. match goal with K : foldM _ _ _ = Ok (ms, u) |- _ => apply G in K; [|intros [ms0 u0] t r K2 | constructor] end.
      + cbn [fst length] in *. rewrite zrange_length in *. destruct H. split; [assumption|]. intros. lia.
      + inv_all. subst r. eexists. split; [right; do 2 eexists; split; [|eassumption] | reflexivity].
        match goal with K : match ?v with Some _ => _ | None => _ end = Ok _ |- _ => destruct v; [inv_all; subst; apply TG_d | injection K as <-; exact (proj1 TG_z)] end.
  Qed.

  (** a delegation of [s] stake as the code computes it *)
  Definition deleg (rs : rss A) (s : num) (d : dict num) : Prop :=
    d = [] \/ (ltb s min_stake_unit = false /\ exists pools, NoDup (map p_id pools) /\ d = greedy_allocations rs pools s).

  Section Agent.
  Variables (m : nat) (al : nat -> nat -> option num) (ow : nat -> nat -> option nat) (ag : agent A) (st : strategy A).
  Hypothesis Hst : a_strategy ag = Some st.
  Hypothesis Eal : forall id, al (a_id ag) id = get (s_alloc st) id.
  Hypothesis Eow : forall id, ow (a_id ag) id = get (s_owned st) id.
  Hypothesis Na : NoDup (keys (s_alloc st)).
  Hypothesis No : NoDup (keys (s_owned st)).
  Notation uid := (a_id ag).

  Lemma efr_refl w : Inv m al ow w -> efr uid w w.
  Proof. intros I. apply hext_efr; [exact (i_fresh _ _ _ _ _ _ I)|]. apply hext_refl. exact (i_fresh _ _ _ _ _ _ I). Qed.

  Lemma delegation_move_spec w s w' new : Inv m al ow w -> find_delegation_move w ag s = Ok (w', new) ->
    Inv m al ow w' /\ efr uid w w' /\ w_next w' = w_next w /\ w_idseq w' = w_idseq w /\ s_owned new = [] /\ alloc_ok w' uid (s_alloc new) /\ deleg (w_rss w) s (s_alloc new).
  Proof.
    intros I H. unfold find_delegation_move in H. destruct (ltb s min_stake_unit) eqn:E.
    - injection H as <- <-. split; [assumption|]. split; [now apply efr_refl|]. repeat split; try (intros; discriminate); [constructor | now left].
    - apply bind_ok in H as ([w1 d] & H1 & H). injection H as <- <-. destruct (stake_allocations_spec m al ow w ag st s w1 d I Hst Eal Na H1) as (I1 & X & En & Es & Hd).
      split; [assumption|]. split; [assumption|]. split; [assumption|]. split; [assumption|]. split; [reflexivity|]. cbn [s_alloc].
      destruct d as [d|]; [|split; [apply alloc_ok_nil | now left]]. destruct Hd as (wz & rk & pools & _ & _ & _ & _ & N & -> & Ha). split; [now apply Ha|]. right. eauto.
  Qed.

  Lemma made_efr pledge cost w0 w w' id r : Inv m al ow w0 -> hext w0 w -> made ag st pledge cost w0 w id r -> efr uid w w' -> made ag st pledge cost w0 w' id r.
  Proof.
    intros I X (R & p & G & H1 & H2 & H3 & H4) (P & N & S & T & E). split; [lia|]. exists p. split.
    - rewrite E; [assumption | lia |]. intros id' G'. exfalso. destruct X as ((_ & _ & _ & _ & _ & _ & _ & Ep & _) & _). rewrite Ep in G'.
      assert (r < w_next w0) by (eapply (Inv_reg_fresh NP PVT); [exact I | exact G']). lia.
    - repeat (split; [assumption|]). destruct (get (s_owned st) id); [assumption|]. destruct H4. split; [lia | assumption].
  Qed.

  (** the operator strategy with [n] pools *)
  Definition op_move (w : world A) (n : Z) (w' : world A) (new : strategy A) : Prop :=
    exists pledge cost, agent_pledge_per_pool w ag n = Ok pledge /\ agent_cost_per_pool w ag n = Ok cost /\ NoDup (keys (s_owned new)) /\ length (s_owned new) = Z.to_nat n /\
      (forall id r, get (s_owned new) id = Some r -> made ag st pledge cost w w' id r) /\
      alloc_ok w' uid (s_alloc new) /\ deleg (w_rss w) (sub (a_stake ag) (mul pledge (ofZ n))) (s_alloc new).

  Lemma owned_fresh w : Inv m al ow w -> forall id r, get (s_owned st) id = Some r ->
    r < w_next w /\ id <= w_idseq w /\ exists p, get (w_heap w) r = Some p /\ p_id p = id /\ p_owner p = uid /\ get (w_pools w) id = Some r.
  Proof.
    intros I id r G. rewrite <- Eow in G. destruct (i_own _ _ _ _ _ _ I _ _ _ G) as [G1 G2]. destruct (i_reg _ _ _ _ _ _ I _ _ G1) as (p & J1 & J2 & J3 & _).
    split; [eapply (Inv_reg_fresh NP PVT); eassumption|]. split; [lia|]. exists p. auto.
  Qed.

  Lemma operator_move_spec w n w1 d ms w' new : Inv m al ow w -> (1 <= n)%Z -> Forall margin_src ms -> length ms = Z.to_nat n -> pools_to_keep so w ag n = Ok (w1, d) -> find_operator_move w1 ag n d ms = Ok (w', new) ->
    Inv m al ow w' /\ efr uid w w' /\ op_move w n w' new.
  Proof.
    intros I Hn F Lms Hk H. assert (Fr : fresh_ok w) by exact (i_fresh _ _ _ _ _ _ I). assert (OF := owned_fresh w I).
    destruct (pools_to_keep_spec w ag st n w1 d Fr Hst No) as (X1 & Es1 & Nd & Inc & Len & Hd); [intros id r G; now destruct (OF id r G) | exact Hk |].
    unfold find_operator_move in H. apply bind_ok in H as (pledge & Hpl & H). apply bind_ok in H as (cost & Hco & H).
    change (fun (acc : world A * nat) (e : nat * nat) => let '(w, i) := acc in let! p := deref w (snd e) in let! p' := adjust_pool w ag pledge cost ms i p in Ok (store w (snd e) p', S i)) with (adjust_one ag pledge cost ms) in H.
    apply bind_ok in H as ([w2 i2] & H2 & H). cbn [fst] in H.
    change (fun (acc : world A * dict nat) (i : nat) => let '(w, d) := acc in let '(w', id) := next_pool_id w in let! p := draft_pool w' ag pledge cost ms i id in
      let '(w'', r) := alloc w' p in Ok (w'', set d id r)) with (draft_one ag pledge cost ms) in H.
    apply bind_ok in H as ([w3 d3] & H3 & H). apply bind_ok in H as ([w4 al4] & H4 & H). injection H as <- <-.
    assert (Rss1 : w_rss w1 = w_rss w) by apply X1.
    assert (Eid : forall id r, In (id, r) d -> exists r0 p, get (s_owned st) id = Some r0 /\ get (w_heap w) r0 = Some p /\ get (w_heap w1) r = Some p /\ p_id p = id /\ p_owner p = uid /\ w_next w <= r < w_next w1).
    { intros id r G. apply In_get in G; [|assumption]. destruct (Hd id r G) as (r0 & p & J1 & J2 & J3 & J4). exists r0, p. destruct (OF _ _ J1) as (_ & _ & p' & G' & K1 & K2 & _).
      rewrite J2 in G'. injection G' as <-. auto 10. }
    assert (Nsnd : NoDup (map snd d)).
    { clear -Nd Eid. induction d as [|[id r] d IH]; [constructor|]. cbn in Nd. apply NoDup_cons_iff in Nd as [N1 N2]. cbn. constructor.
      - intros J. apply N1. apply in_map_iff in J as ([id' r'] & E & J). cbn in E. subst r'. destruct (Eid id r (or_introl eq_refl)) as (r0 & p & _ & _ & J3 & J4 & _).
        destruct (Eid id' r (or_intror J)) as (r1 & p1 & _ & _ & J3' & J4' & _). replace id with id' by congruence. now apply (in_map fst) in J.
      - apply IH; [assumption|]. intros; apply Eid; now right. }
    destruct (adjust_all_spec w ag pledge cost ms F d w1 0 w2 i2 Nsnd X1) as (X2 & En2 & Es2 & _ & Hadj); [intros id r G; now destruct (Eid id r G) as (? & ? & ? & ? & ? & ? & ? & ?) | rewrite Lms, Len by lia; lia | exact H2 |].
    destruct (draft_all_spec w ag st pledge cost ms F) with (l := seq (length d) (Z.to_nat n - length d)) (w := w2) (d := d) (w' := w3) (d' := d3) as (X3 & Nd3 & Hmade & Len3); [| | assumption | assumption | | exact H3 |].
    { intros id J. apply get_Some_key in J as (r & J). now destruct (OF _ _ J) as (_ & ? & _). }
    { intros i J. apply in_seq in J. lia. }
    { intros id r G. apply get_In in G. destruct (Eid id r G) as (r0 & p & J1 & J2 & J3 & J4 & J5 & J6). destruct (Hadj id r G) as (q & q' & K1 & K2 & K3 & K4 & K5 & K6 & K7). rewrite J3 in K1. injection K1 as <-.
      split; [lia|]. exists q'. split; [assumption|]. split; [congruence|]. split; [congruence|]. split; [assumption|]. rewrite J1. exists p. auto. }
    assert (I3 : Inv m al ow w3) by (eapply hext_inv; eassumption).
    assert (E3 : efr uid w w3) by now apply hext_efr.
    assert (Fin : forall w5 al5, Inv m al ow w5 -> efr uid w3 w5 -> alloc_ok w5 uid al5 -> deleg (w_rss w) (sub (a_stake ag) (mul pledge (ofZ n))) al5 ->
              Inv m al ow w5 /\ efr uid w w5 /\ op_move w n w5 (mkStrategy al5 d3)).
    { intros w5 al5 I5 E5 A5 D5. split; [assumption|]. split; [eapply efr_trans; eassumption|]. exists pledge, cost. cbn [s_owned s_alloc].
      split; [unfold agent_pledge_per_pool in *; now rewrite <- Rss1|]. split; [unfold agent_cost_per_pool in *; destruct X1 as ((_ & _ & _ & Ephi & _) & _); now rewrite <- Ephi|].
      split; [assumption|]. split; [rewrite Len3, seq_length, Len by lia; lia|]. split; [|now split]. intros id r G. eapply made_efr; [exact I | exact X3 | now apply Hmade | assumption]. }
    unfold find_delegation_for_operator in H4. destruct (ltb zero (sub (a_stake ag) (mul pledge (ofZ n)))) eqn:E.
    - apply bind_ok in H4 as ([w5 s5] & H4 & H5). injection H5 as <- <-. destruct (delegation_move_spec _ _ _ _ I3 H4) as (I5 & E5 & _ & _ & _ & A5 & D5).
      assert (Rss3 : w_rss w3 = w_rss w) by apply X3. rewrite Rss3 in D5. now apply Fin.
    - injection H4 as <- <-. apply Fin; [assumption | now apply efr_refl | apply alloc_ok_nil | now left].
  Qed.

  Lemma choose_spec w w' u s : Inv m al ow w -> choose_pool_strategy so w ag = Ok (w', u, s) ->
    Inv m al ow w' /\ efr uid w w' /\ match s with None => w' = w | Some new => (exists n, ((1 <= n <= r_k (w_rss w))%Z /\ exists ms, search (margins_and_utility w ag) (search_fuel (r_k (w_rss w))) 1 (r_k (w_rss w)) = Ok (n, ms)) /\ op_move w n w' new) /\ expected_utility w' ag new = Ok u end.
  Proof.
    intros I H. unfold choose_pool_strategy in H. apply bind_ok in H as ([t ms] & H1 & H).
    assert (H1' := H1). apply search_ok in H1' as [(v & Hm) Hr]. apply (margins_src m al ow) in Hm as [Fm Lm]; [|assumption]. destruct (Z.ltb_spec 0 t).
    - apply bind_ok in H as ([w1 d] & Hk & H). apply bind_ok in H as ([w2 new] & Ho & H). apply bind_ok in H as (v2 & Hu & H). injection H as <- <- <-.
      destruct (operator_move_spec w t w1 d ms w2 new I ltac:(lia) Fm ltac:(apply Lm; lia) Hk Ho) as (I2 & E2 & M). split; [assumption|]. split; [assumption|]. split; [|assumption]. exists t. split; [|assumption]. split; [|eauto].
      destruct (Z.le_gt_cases 1 (r_k (w_rss w))) as [K|K]; [now apply Hr|]. exfalso. apply search_empty in H1; [|lia].
      assert ((1 + r_k (w_rss w)) / 2 < 1)%Z by (apply Z.div_lt_upper_bound; lia). lia.
    - injection H as <- <- <-. split; [assumption|]. split; [now apply efr_refl | reflexivity].
  Qed.
  End Agent.
End Eval.
