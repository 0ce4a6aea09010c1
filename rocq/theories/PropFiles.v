(** The csv files with one header (C43) and the sequence file (C44). *)
From Coq Require Import ZArith List Bool String Ascii Lia Permutation DecimalString DecimalZ.
From Verif Require Import Num Py Batch ListFacts PropSched PropBatch.
Import ListNotations.
Open Scope nat_scope.

(** * C43 *)
(** the calls that opened the file, and those that finished, in this order *)
Definition opens (l : list csv_event) : list nat := flat_map (fun e => match e with Opens i => [i] | Closes _ => [] end) l.
Definition closes (l : list csv_event) : list nat := flat_map (fun e => match e with Closes i => [i] | Opens _ => [] end) l.
(** the calls that opened the file before any call finished *)
Fixpoint early (l : list csv_event) : list nat := match l with Opens i :: l => i :: early l | _ => [] end.
Definition rows_in (file : list line) : list nat := flat_map (fun x => match x with Row i => [i] | Header => [] end) file.
Definition headers_in (file : list line) : nat := List.length (filter (fun x => match x with Header => true | Row _ => false end) file).

Lemma get_keys {V} (d : dict V) k : In k (keys d) <-> exists v, get d k = Some v.
Proof. symmetry. apply get_Some_key. Qed.
Lemma NoDup_app_disj {X} (l l' : list X) x : NoDup (l ++ l') -> In x l -> ~ In x l'.
Proof. induction l as [|y l IH]; cbn; [intros _ []|]. intros N [->|J]; apply NoDup_cons_iff in N as [N1 N2]; [intros K; apply N1, in_or_app; now right | now apply IH]. Qed.
Lemma csv_tail : forall post (file : list line) pend file' pend', file <> [] -> NoDup (keys pend) -> NoDup (opens post) -> (forall j, In j (opens post) -> get pend j = None) ->
  csv_run (file, pend) post = Ok (file', pend') ->
  file' = file ++ flat_map (fun i => match get pend i with Some true => [Header; Row i] | _ => [Row i] end) (closes post) /\ (forall i, In i (closes post) -> In i (keys pend) \/ In i (opens post)) /\ NoDup (closes post).
Proof.
  induction post as [|e post IH]; intros file pend file' pend' Nf Nk No Hf H; unfold csv_run in H; cbn [foldM] in H; [injection H as <- <-; cbn; rewrite List.app_nil_r; split; [reflexivity|]; split; [intros i [] | constructor]|].
  apply bind_ok in H as ([f1 p1] & H1 & H). fold (csv_run (f1, p1) post) in H. destruct e as [j|i]; cbn [csv_step] in H1.
  - injection H1 as <- <-. cbn [opens flat_map app] in No, Hf. fold (opens post) in No, Hf. apply NoDup_cons_iff in No as [No1 No2]. assert (Gj := Hf j (or_introl eq_refl)). assert (F : match file with [] => true | _ => false end = false) by (destruct file; congruence). rewrite F in H.
    apply IH in H; [|assumption | now apply NoDup_set | assumption |].
    + destruct H as (H & H2 & H3). split; [|split; [|exact H3]].
      * rewrite H. f_equal. cbn [closes flat_map app]. fold (closes post). clear H H2 H3 IH. induction (closes post) as [|i l IHl]; cbn; [reflexivity|]. rewrite IHl. f_equal. destruct (Nat.eq_dec j i) as [<-|Ne]; [rewrite get_set_eq, Gj | rewrite get_set_ne by congruence]; reflexivity.
      * intros i J. cbn [closes flat_map app opens] in *. fold (closes post) in J. fold (opens post). apply H2 in J as [J|J]; [|right; now right]. destruct (Nat.eq_dec j i) as [->|Ne]; [right; now left|]. left. clear - J Ne. apply get_keys in J as (v & J). rewrite get_set_ne in J by congruence. apply get_keys. eauto.
    + intros k J. rewrite get_set_ne; [apply Hf; now right|]. intros <-. contradiction.
  - apply bind_ok in H1 as (b & Hb & H1). apply of_option_ok in Hb. injection H1 as <- <-. cbn [opens flat_map app] in No, Hf. fold (opens post) in No, Hf. apply IH in H.
    + destruct H as (H & H2 & H3). assert (Ni : ~ In i (closes post)).
      { intros J. apply H2 in J as [J|J]; [|apply Hf in J; congruence]. apply get_keys in J as (v & J). rewrite get_pop_eq in J by assumption. discriminate. }
      split; [|split].
      * rewrite H. cbn [closes flat_map app]. fold (closes post). rewrite Hb, <- !app_assoc. f_equal. replace (flat_map (fun i0 => match get (pop pend i) i0 with Some true => [Header; Row i0] | _ => [Row i0] end) (closes post)) with (flat_map (fun i0 => match get pend i0 with Some true => [Header; Row i0] | _ => [Row i0] end) (closes post)); [destruct b; reflexivity|].
        clear - Ni. induction (closes post) as [|k l IHl]; cbn; [reflexivity|]. rewrite IHl by (intros J; apply Ni; now right). f_equal. rewrite get_pop_ne; [reflexivity|]. intros ->. apply Ni. now left.
      * intros k J. cbn [closes flat_map app opens] in *. fold (closes post) in J. fold (opens post). destruct J as [<-|J]; [left; apply get_keys; eauto|]. apply H2 in J as [J|J]; [|now right]. left. apply get_keys in J as (v & J). destruct (Nat.eq_dec i k) as [<-|Ne]; [apply get_keys; eauto|]. rewrite get_pop_ne in J by congruence. apply get_keys. eauto.
      * cbn [closes flat_map app]. constructor; assumption.
    + intros E. apply app_eq_nil in E as [_ E]. apply app_eq_nil in E as [_ E]. discriminate.
    + now apply NoDup_pop.
    + assumption.
    + intros k J. destruct (Nat.eq_dec i k) as [<-|Ne]; [now apply get_pop_eq|]. rewrite get_pop_ne by congruence. now apply Hf.
Qed.
Lemma csv_head l : forall pend, NoDup (keys pend) -> (forall i b, get pend i = Some b -> b = true) ->
  (closes l = [] /\ exists p, csv_run ([], pend) l = Ok ([], p)) \/
  exists post p, l = map Opens (early l) ++ post /\ (exists i post', post = Closes i :: post') /\ csv_run ([], pend) (map Opens (early l)) = Ok ([], p) /\ NoDup (keys p) /\
    (forall i, get p i = Some true <-> In i (early l) \/ In i (keys pend)) /\ (forall i b, get p i = Some b -> b = true) /\ opens l = early l ++ opens post.
Proof.
  induction l as [|[j|i] l IH]; intros pend Nk Hp.
  - left. split; [reflexivity|]. now exists pend.
  - cbn [early map]. destruct (IH (set pend j true)) as [(C & p & H)|(post & p & E & X & H & N & G & B & O)].
    + now apply NoDup_set.
    + intros i b. destruct (Nat.eq_dec j i) as [<-|Ne]; [rewrite get_set_eq; congruence | rewrite get_set_ne by congruence; apply Hp].
    + left. split; [assumption|]. exists p. exact H.
    + right. exists post, p. split; [cbn; now f_equal|]. split; [assumption|]. split; [exact H|]. split; [assumption|]. split; [|split; [assumption | cbn; now f_equal]]. intros i. rewrite G. split.
      * intros [J|J]; [left; now right|]. destruct (Nat.eq_dec j i) as [->|Ne]; [left; now left|]. right. apply get_keys in J as (v & J). rewrite get_set_ne in J by congruence. apply get_keys. eauto.
      * intros [[->|J]|J]; [right; apply get_keys; exists true; apply get_set_eq | now left|]. right. apply get_keys. destruct (Nat.eq_dec j i) as [->|Ne]; [exists true; apply get_set_eq|]. apply get_keys in J as (v & J). exists v. now rewrite get_set_ne by congruence.
  - right. exists (Closes i :: l), pend. cbn. split; [reflexivity|]. split; [eauto|]. split; [reflexivity|]. split; [assumption|]. split; [|split; [assumption | reflexivity]]. intros k. split.
    + intros H. right. apply get_keys. eauto.
    + intros [[]|J]. apply get_keys in J as (v & J). rewrite J. f_equal. eapply Hp; eassumption.
Qed.

(** Any number of calls on a file that does not exist yet, interleaved in any way, each of which may stop (crash) after opening it: the calls that finish
    write one row each, in the order in which they finish.  The file starts with a header, and it has exactly one header for each of these calls
    that opened the file before any call finished. *)
Theorem C43_all_interleavings : forall l file pending, NoDup (opens l) -> csv_run ([], []) l = Ok (file, pending) ->
  rows_in file = closes l /\ NoDup (closes l) /\
  headers_in file = List.length (filter (fun i => inb i (early l)) (closes l)) /\
  (closes l <> [] -> exists rest, file = Header :: rest).
Proof.
  intros l file pending No H. destruct (csv_head l [] (NoDup_nil _) ltac:(discriminate)) as [(C & p & H')|(post & p & E & (i0 & post' & Ep) & H' & Nk & G & B & O)].
  - assert (X : Ok (file, pending) = Ok ([], p)) by (etransitivity; [symmetry; exact H | exact H']). injection X as -> ->. rewrite C. split; [reflexivity|]. split; [constructor|]. split; [reflexivity | congruence].
  - rewrite E in H. unfold csv_run in H. rewrite foldM_app in H. apply bind_ok in H as ([f0 p0] & H0 & H). assert (X : Ok (f0, p0) = Ok ([], p)) by (etransitivity; [symmetry; exact H0 | exact H']). injection X as -> ->. cbn [bind] in H.
    assert (Cl : closes l = closes post). { rewrite E at 1. unfold closes. rewrite flat_map_app, flat_map_map. replace (flat_map (fun _ => []) (early l)) with (@nil nat) by (clear; induction (early l); auto). reflexivity. }
    subst post. cbn [foldM] in H. apply bind_ok in H as ([f1 p1] & H1 & H). cbn [csv_step] in H1. apply bind_ok in H1 as (b & Hb & H1). apply of_option_ok in Hb. assert (b = true) by (eapply B; eassumption). subst b. injection H1 as <- <-. cbn [app] in H.
    assert (Op : opens (Closes i0 :: post') = opens post') by reflexivity. rewrite Op in O. rewrite O in No. apply csv_tail in H.
    + destruct H as (H & H2 & H3). assert (Ei : In i0 (early l)) by (apply G in Hb as [Hb|[]]; exact Hb). assert (Ni : ~ In i0 (closes post')).
      { intros J. apply H2 in J as [J|J]; [apply get_keys in J as (v & J); rewrite get_pop_eq in J by assumption; discriminate|]. revert J. eapply NoDup_app_disj; eassumption. }
      assert (Cp : closes (Closes i0 :: post') = i0 :: closes post') by reflexivity. rewrite Cl, Cp.
      assert (Fl : forall k, In k (closes post') -> (match get (pop p i0) k with Some true => [Header; Row k] | _ => [Row k] end) = (if inb k (early l) then [Header; Row k] else [Row k])).
      { intros k J. assert (Ne : i0 <> k) by (intros ->; contradiction). rewrite get_pop_ne by congruence. destruct (inb k (early l)) eqn:X.
        - apply inb_spec in X. assert (Y : get p k = Some true) by (apply G; now left). now rewrite Y.
        - assert (Y : ~ In k (early l)) by (intros Z; apply inb_spec in Z; congruence). destruct (get p k) as [[]|] eqn:Gk; try reflexivity. apply G in Gk as [Gk|[]]. contradiction. }
      rewrite H. split; [|split; [constructor; assumption|split]].
      * cbn. f_equal. unfold rows_in. clear H H2 H3 Ni Cp. induction (closes post') as [|k c IHc]; [reflexivity|]. cbn [flat_map]. rewrite Fl by now left. rewrite flat_map_app, IHc by (intros; apply Fl; now right). destruct (inb k (early l)); reflexivity.
      * unfold headers_in. cbn [app filter List.length]. apply inb_spec in Ei. rewrite Ei. cbn [List.length]. f_equal. clear H H2 H3 Ni Cp. induction (closes post') as [|k c IHc]; [reflexivity|]. cbn [flat_map]. rewrite Fl by now left. rewrite filter_app, app_length, IHc by (intros; apply Fl; now right). cbn [filter]. destruct (inb k (early l)); reflexivity.
      * intros _. eexists. reflexivity.
    + discriminate.
    + now apply NoDup_pop.
    + clear - No. induction (early l); [assumption|]. apply NoDup_cons_iff in No as [_ No]. auto.
    + intros k J. assert (X : ~ In k (early l)) by (intros Y; revert J; eapply NoDup_app_disj; eassumption). destruct (get (pop p i0) k) as [v|] eqn:Gk; [|reflexivity]. exfalso. destruct (Nat.eq_dec i0 k) as [<-|Ne]; [rewrite get_pop_eq in Gk by assumption; discriminate|].
      rewrite get_pop_ne in Gk by congruence. assert (v = true) by (eapply B; eassumption). subst v. apply G in Gk as [Gk|[]]. contradiction.
Qed.
(** exactly one header, unless two calls that finish opened the file before the first of them had finished *)
Theorem C43_one_header : forall l file pending, NoDup (opens l) -> csv_run ([], []) l = Ok (file, pending) ->
  (forall i j, In i (closes l) -> In j (closes l) -> In i (early l) -> In j (early l) -> i = j) -> closes l <> [] ->
  file = Header :: map Row (closes l).
Proof.
  intros l file pending No H Hu Nc. destruct (C43_all_interleavings l file pending No H) as (R & Nd & Hh & Hs). destruct (Hs Nc) as (rest & ->). f_equal. cbn in R, Hh.
  assert (L : List.length (filter (fun i => inb i (early l)) (closes l)) <= 1).
  { assert (Nf : NoDup (filter (fun i => inb i (early l)) (closes l))) by now apply NoDup_filter. destruct (filter (fun i => inb i (early l)) (closes l)) as [|a [|b f]] eqn:E; cbn; [lia | lia|]. exfalso.
    assert (Ja : In a (filter (fun i => inb i (early l)) (closes l))) by (rewrite E; now left). assert (Jb : In b (filter (fun i => inb i (early l)) (closes l))) by (rewrite E; right; now left). apply filter_In in Ja as [A1 A2]. apply filter_In in Jb as [B1 B2]. apply inb_spec in A2. apply inb_spec in B2.
    assert (a = b) by now apply Hu. subst. apply NoDup_cons_iff in Nf as [Nf _]. apply Nf. now left. }
  assert (Z : headers_in rest = 0) by (unfold headers_in in Hh |- *; cbn in Hh; lia). rewrite <- R. clear - Z. induction rest as [|[|i] rest IH]; [reflexivity | discriminate|]. cbn. f_equal. apply IH. exact Z.
Qed.
(** calls that do not overlap; [true]: the call finishes, [false]: it stops after opening the file *)
Definition one_after_another (calls : list (nat * bool)) : list csv_event := flat_map (fun x : nat * bool => Opens (fst x) :: if snd x then [Closes (fst x)] else []) calls.
Definition finishing (calls : list (nat * bool)) : list nat := map fst (filter snd calls).
Theorem C43_without_overlap : forall calls file0, (file0 = [] \/ exists rest : list nat, file0 = Header :: map Row rest) ->
  exists pending, csv_run (file0, []) (one_after_another calls) = Ok (match finishing calls with [] => file0 | new => Header :: map Row (rows_in file0 ++ new) end, pending).
Proof.
  intros calls file0 H0. generalize (@nil (nat * bool)) as pend. revert file0 H0. induction calls as [|[i b] calls IH]; intros file0 H0 pend; [exists pend; reflexivity|].
  cbn [one_after_another flat_map fst snd app]. fold (one_after_another calls). unfold csv_run. cbn [foldM csv_step bind]. destruct b.
  - cbn [app foldM csv_step]. rewrite get_set_eq. cbn [of_option bind]. set (fl := match file0 with [] => true | _ => false end).
    assert (E : exists rest, file0 ++ (if fl then [Header] else []) ++ [Row i] = Header :: map Row rest /\ rest = rows_in file0 ++ [i]).
    { destruct H0 as [->|(rest & ->)]; [exists [i]; split; reflexivity|]. exists (rest ++ [i]). cbn. rewrite map_app. split; [reflexivity|]. f_equal. clear. unfold rows_in. induction rest as [|x r IHr]; [reflexivity|]. cbn. now f_equal. }
    destruct E as (rest & E & Er). rewrite E. destruct (IH (Header :: map Row rest) (or_intror (ex_intro _ rest eq_refl)) (pop (set pend i fl) i)) as (p & H). exists p. etransitivity; [exact H|]. f_equal. f_equal.
    cbn [finishing filter snd map fst]. fold (finishing calls). assert (Rr : rows_in (Header :: map Row rest) = rest) by (clear; cbn; unfold rows_in; induction rest as [|x r IHr]; [reflexivity | cbn; now f_equal]).
    change (map fst (filter snd calls)) with (finishing calls). rewrite Rr, Er. destruct (finishing calls); [reflexivity|]. now rewrite <- app_assoc.
  - cbn [app]. destruct (IH file0 H0 (set pend i (match file0 with [] => true | _ => false end))) as (p & H). exists p. exact H.
Qed.
(** with processes that write at the same time, two headers are possible *)
Theorem C43_overlapping_refuted : exists l pending, NoDup (opens l) /\ csv_run ([], []) l = Ok ([Header; Row 0; Header; Row 1], pending).
Proof. exists [Opens 0; Opens 1; Closes 0; Closes 1]. eexists. split; [repeat constructor; cbn; intuition discriminate | reflexivity]. Qed.
Example C43_instance : exists p, let l := [Opens 3; Opens 0; Closes 0; Opens 1; Opens 2; Closes 2; Closes 1] in NoDup (opens l) /\ csv_run ([], []) l = Ok ([Header; Row 0; Row 2; Row 1], p) /\ early l = [3; 0] /\
  (forall i j, In i (closes l) -> In j (closes l) -> In i (early l) -> In j (early l) -> i = j).
Proof. eexists. cbv zeta. split; [repeat constructor; cbn; intuition discriminate|]. split; [reflexivity|]. split; [reflexivity|]. cbn. intuition (subst; congruence). Qed.

(** * C44 *)
(** how an execution ends: it crashes before it opens the file for writing, or after that and before the number is written, or neither *)
Inductive outcome := Before_open | Before_write | Complete.
Definition execution (i : nat) (o : outcome) : list seq_event := Reads i :: match o with Before_open => [] | Before_write => [Truncates i] | Complete => [Truncates i; Writes i] end.
Definition executions (l : list (nat * outcome)) : list seq_event := flat_map (fun x => execution (fst x) (snd x)) l.
Definition completed (l : list (nat * outcome)) : nat := List.length (filter (fun x => match snd x with Complete => true | _ => false end) l).
(** the file as left by the execution with number [n]; n = 0: no execution yet, no file *)
Definition numbered (n : Z) : option string := if (n =? 0)%Z then None else Some (str_int n).

Lemma parse_str_int z : parse_seq (str_int z) = Ok z.
Proof.
  unfold parse_seq, str_int. assert (P : forall p, Pos.to_uint p <> Decimal.Nil) by (intros p X; assert (Y := DecimalPos.Unsigned.of_to p); rewrite X in Y; discriminate).
  assert (E : NilZero.int_of_string (NilEmpty.string_of_int (Z.to_int z)) = Some (Z.to_int z)).
  { assert (H : Z.to_int z <> Decimal.Pos Decimal.Nil /\ Z.to_int z <> Decimal.Neg Decimal.Nil) by (destruct z as [|p|p]; cbn; try (specialize (P p)); split; congruence). destruct H as [H1 H2].
    transitivity (NilZero.int_of_string (NilZero.string_of_int (Z.to_int z))); [|now apply NilZero.isi]. f_equal. destruct (Z.to_int z) as [[]|[]]; try reflexivity; congruence. }
  rewrite E. now rewrite DecimalZ.of_to.
Qed.
Lemma overwrite_empty s : overwrite s EmptyString = s.
Proof. unfold overwrite. assert (E : substring (String.length s) (String.length "" - String.length s) "" = ""%string) by (destruct (String.length s); reflexivity). rewrite E. clear E. induction s as [|c s IH]; cbn; [reflexivity|]. now rewrite IH. Qed.
Lemma read_numbered n : (0 <= n)%Z -> read_seq (numbered n) = Ok n.
Proof. unfold numbered. destruct (Z.eqb_spec n 0) as [->|]; [reflexivity|]. intros _. apply parse_str_int. Qed.

(** Executions one after another, none of which crashes between opening the file for writing and writing: the number of each is one more than the number of all
    that completed before it, so that it is greater than all their numbers. *)
Theorem C44_numbers_increase : forall l n, (0 <= n)%Z -> NoDup (map fst l) -> (forall x, In x l -> snd x <> Before_write) ->
  exists ids, seq_run (numbered n, []) (executions l) = Ok (numbered (n + Z.of_nat (completed l)), ids) /\
    forall pre i o post, l = pre ++ (i, o) :: post -> get ids i = Some (n + Z.of_nat (completed pre) + 1)%Z.
Proof.
  intros l n Hn Nd Hc. assert (M : forall l n ids0, (0 <= n)%Z -> NoDup (map fst l) -> (forall x, In x l -> snd x <> Before_write) -> exists ids, seq_run (numbered n, ids0) (executions l) = Ok (numbered (n + Z.of_nat (completed l)), ids) /\
    (forall pre i o post, l = pre ++ (i, o) :: post -> get ids i = Some (n + Z.of_nat (completed pre) + 1)%Z) /\ (forall j, ~ In j (map fst l) -> get ids j = get ids0 j)); [|destruct (M l n [] Hn Nd Hc) as (ids & M1 & M2 & _); eauto].
  clear. induction l as [|[i o] l IH]; intros n ids0 Hn Nd Hc.
  - exists ids0. split; [cbn; now rewrite Z.add_0_r|]. split; [intros [|] ? ? ?; discriminate | reflexivity].
  - cbn in Nd. apply NoDup_cons_iff in Nd as [Nd1 Nd2]. unfold seq_run. cbn [executions flat_map fst snd]. fold (executions l). rewrite foldM_app. unfold execution. cbn [foldM seq_step]. rewrite read_numbered by assumption. cbn [bind].
    assert (Hc' : forall x, In x l -> snd x <> Before_write) by (intros x J; apply Hc; now right). destruct o; [|exfalso; exact (Hc _ (or_introl eq_refl) eq_refl)|].
    + cbn [foldM bind]. destruct (IH n (set ids0 i (n + 1)%Z) Hn Nd2 Hc') as (ids & I1 & I2 & I3). exists ids. split; [exact I1|]. split.
      * intros [|x pre] j o post E; cbn in E; injection E; intros; subst.
        -- rewrite I3 by assumption. rewrite get_set_eq. cbn. f_equal. lia.
        -- cbn. eapply I2. reflexivity.
      * intros j J. cbn in J. rewrite I3 by tauto. apply get_set_ne. intros ->. tauto.
    + cbn [foldM seq_step bind]. rewrite get_set_eq. cbn [of_option bind]. rewrite overwrite_empty. assert (Ef : Some (str_int (n + 1)) = numbered (n + 1)) by (unfold numbered; destruct (Z.eqb_spec (n + 1) 0); [lia | reflexivity]). rewrite Ef.
      destruct (IH (n + 1)%Z (set ids0 i (n + 1)%Z) ltac:(lia) Nd2 Hc') as (ids & I1 & I2 & I3). exists ids. unfold completed in *. cbn [filter snd List.length]. split; [unfold seq_run in I1; rewrite I1; do 3 f_equal; lia|]. split.
      * intros [|x pre] j o post E; cbn in E; injection E; intros; subst.
        -- rewrite I3 by assumption. rewrite get_set_eq. cbn. f_equal. lia.
        -- cbn [filter snd List.length]. rewrite (I2 _ _ _ _ eq_refl). f_equal. lia.
      * intros j J. cbn in J. rewrite I3 by tauto. apply get_set_ne. intros ->. tauto.
Qed.
(** After a crash between opening the file for writing and writing the number, every later execution in this directory raises ValueError: the number is not reused, but no
    number can be had. *)
Theorem C44_crash_refuted : forall l n i, (0 <= n)%Z -> NoDup (map fst l) -> (forall x, In x l -> snd x <> Before_write) ->
  exists st, seq_run (numbered n, []) (executions (l ++ [(i, Before_write)])) = Ok st /\ forall j, seq_step st (Reads j) = Err ValueError.
Proof.
  intros l n i Hn Nd Hc. destruct (C44_numbers_increase l n Hn Nd Hc) as (ids & H & _). exists (Some EmptyString, set ids i (n + Z.of_nat (completed l) + 1)%Z). split; [|reflexivity].
  unfold seq_run, executions. rewrite flat_map_app, foldM_app. unfold seq_run, executions in H. rewrite H. cbn [flat_map app execution fst snd bind]. cbn [foldM seq_step]. rewrite read_numbered by lia. reflexivity.
Qed.
(** Two executions that start at the same time can get the same number, *)
Theorem C44_race_refuted : forall n, (0 <= n)%Z -> exists file ids, seq_run (numbered n, []) [Reads 0; Reads 1; Truncates 0; Writes 0; Truncates 1; Writes 1] = Ok (file, ids) /\ get ids 0 = Some (n + 1)%Z /\ get ids 1 = Some (n + 1)%Z.
Proof.
  intros n Hn. unfold seq_run. cbn [foldM seq_step]. rewrite read_numbered by assumption. cbn [bind foldM seq_step set get Nat.eqb of_option]. rewrite read_numbered by assumption. cbn [bind foldM seq_step set get Nat.eqb of_option]. rewrite !overwrite_empty. eexists _, _. split; [reflexivity|]. split; reflexivity.
Qed.
(** and the file can be left with a number that nobody got *)
Example C44_garbled : exists ids, seq_run (numbered 8, []) [Reads 0; Reads 2; Truncates 2; Writes 2; Reads 1; Truncates 0; Truncates 1; Writes 1; Writes 0] = Ok (Some "90"%string, ids) /\ ids = [(0, 9%Z); (2, 9%Z); (1, 10%Z)].
Proof. eexists. split; [vm_compute; reflexivity | reflexivity]. Qed.
Example C44_instance : exists ids, let l := [(0, Complete); (1, Before_open); (2, Complete); (3, Complete)] in NoDup (map fst l) /\ (forall x, In x l -> snd x <> Before_write) /\ seq_run (numbered 0, []) (executions l) = Ok (Some "3"%string, ids) /\ ids = [(0, 1%Z); (1, 2%Z); (2, 2%Z); (3, 3%Z)].
Proof. eexists. cbv zeta. split; [repeat constructor; cbn; intuition discriminate|]. split; [cbn; intuition (subst; discriminate)|]. split; [vm_compute; reflexivity | reflexivity]. Qed.
