(** Proofs about the compression threads. *)
From Verif Require Import Base PyList PyList_Proofs Wire_Model Compress_Model Compress_Spec.
From Coq Require Import ZifyBool ZifyNat.
Open Scope nat_scope.

(** ** Sums over lists *)

Fixpoint sum {A} (g : A -> nat) (l : list A) : nat := match l with [] => 0 | x :: l => g x + sum g l end.
Lemma sum_app {A} (g : A -> nat) a b : sum g (a ++ b) = sum g a + sum g b.
Proof. induction a; cbn [sum app]; lia. Qed.
Lemma sum_map {A B} (g : B -> nat) (f : A -> B) l : sum g (map f l) = sum (fun x => g (f x)) l.
Proof. induction l; cbn [sum map]; lia. Qed.
Lemma sum_ext {A} (g h : A -> nat) l : (forall x, In x l -> g x = h x) -> sum g l = sum h l.
Proof. induction l as [|x l IH]; intros H; cbn [sum]; [reflexivity|]. rewrite (H x), IH; [reflexivity|firstorder|now left]. Qed.
Lemma sum_le {A} (g h : A -> nat) l : (forall x, g x <= h x) -> sum g l <= sum h l.
Proof. intros H. induction l as [|x l IH]; cbn [sum]; [lia|]. specialize (H x). lia. Qed.
Lemma sum_replace {A} (g : A -> nat) t x y l : nth_error l t = Some x ->
  sum g (replace_nth t y l) + g x = sum g l + g y.
Proof.
  revert t; induction l as [|z l IH]; intros [|t] N; try discriminate; cbn [nth_error replace_nth sum] in *.
  - injection N as ->. lia.
  - specialize (IH t N). lia.
Qed.
Lemma sum_nth {A} (g : A -> nat) t x l : nth_error l t = Some x -> g x <= sum g l.
Proof. revert t; induction l as [|z l IH]; intros [|t] N; try discriminate; cbn [nth_error sum] in *; [injection N as ->|specialize (IH t N)]; lia. Qed.
Lemma sum_pos {A} (g : A -> nat) l : 1 <= sum g l -> exists x, In x l /\ 1 <= g x.
Proof.
  induction l as [|x l IH]; cbn [sum]; [lia|]. intros H. destruct (le_lt_dec 1 (g x)); [exists x; split; [now left|assumption]|].
  destruct IH as (y & I & L); [lia|]. exists y. split; [now right|assumption].
Qed.
Lemma replace_nth_cases {A} j (x : A) l j' y : nth_error (replace_nth j x l) j' = Some y ->
  (j' = j /\ y = x /\ j < length l) \/ (j' <> j /\ nth_error l j' = Some y).
Proof.
  intros N. destruct (Nat.eq_dec j j') as [<-|D].
  - left. assert (nth_error (replace_nth j x l) j <> None) as L by congruence.
    apply nth_error_Some in L. rewrite replace_nth_length in L. rewrite nth_error_replace_same in N by exact L.
    repeat split; congruence || assumption.
  - right. rewrite nth_error_replace_other in N by exact D. split; congruence.
Qed.
Lemma map_nth_error_inv {A B} (f : A -> B) l t y : nth_error (map f l) t = Some y -> exists x, nth_error l t = Some x /\ y = f x.
Proof.
  revert t; induction l as [|x l IH]; intros [|t]; cbn; try discriminate; [intros [= <-]; eauto|apply IH].
Qed.

Lemma nth_error_ext' {A} (l m : list A) : (forall i, nth_error l i = nth_error m i) -> l = m.
Proof.
  revert m; induction l as [|x l IH]; intros [|y m] H; [reflexivity|specialize (H 0); discriminate..|].
  pose proof (H 0) as H0. injection H0 as ->. f_equal. apply IH. intros i. apply (H (S i)).
Qed.

(** ** Sets of blocks *)

Notation id := (nat * nat)%type.
Definition b2n (b : bool) : nat := if b then 1 else 0.
Definition cnt (b : id) (l : list id) : nat := sum (fun x => b2n (id_eqb b x)) l.
Lemma id_eqb_spec a b : reflect (a = b) (id_eqb a b).
Proof.
  destruct a as [a1 a2], b as [b1 b2]. unfold id_eqb. cbn [fst snd].
  destruct (Nat.eqb_spec a1 b1), (Nat.eqb_spec a2 b2); constructor; congruence.
Qed.
Lemma id_eqb_sym a b : id_eqb a b = id_eqb b a.
Proof. destruct (id_eqb_spec a b), (id_eqb_spec b a); congruence. Qed.
Lemma id_eqb_refl a : id_eqb a a = true.
Proof. destruct (id_eqb_spec a a); congruence. Qed.
Lemma mem_cnt b l : mem b l = (1 <=? cnt b l).
Proof.
  induction l as [|x l IH]; cbn [mem existsb cnt sum]; [reflexivity|].
  change (mem b l) with (existsb (id_eqb b) l) in IH. rewrite IH. unfold cnt. destruct (id_eqb b x); cbn [b2n]; lia.
Qed.
Lemma cnt_insert b a l : cnt a (insert b l) = if mem b l then cnt a l else cnt a l + b2n (id_eqb a b).
Proof. unfold insert. destruct (mem b l); [reflexivity|]. unfold cnt. rewrite sum_app. cbn [sum]. lia. Qed.
Lemma cnt_erase b a l : cnt a (erase b l) = if id_eqb a b then 0 else cnt a l.
Proof.
  unfold erase, cnt. induction l as [|x l IH]; cbn [filter sum]; [now destruct (id_eqb a b)|].
  destruct (id_eqb_spec b x) as [<-|D]; cbn [negb]; [|cbn [sum]]; rewrite IH; destruct (id_eqb_spec a b) as [->|D']; cbn [b2n]; try reflexivity.
  destruct (id_eqb_spec b x); [congruence|reflexivity].
Qed.
Lemma cnt_in b l : In b l -> 1 <= cnt b l.
Proof.
  induction l as [|x l IH]; intros []; unfold cnt; cbn [sum]; [subst; rewrite id_eqb_refl; cbn; lia|].
  specialize (IH H). unfold cnt in IH. lia.
Qed.

(** ** The invariant *)

Section Proofs.
  Variable lz4 : bytes -> bytes.
  Variable limit : Z.
  Notation frame := (frame lz4).
  Variable programs : list (list bytes * bool).

  Definition raw (c : bytes) (blk : block) : Prop := blk = new_block c.
  Definition cooked (c : bytes) (blk : block) : Prop := blk = {| data := frame c; compressed := true; compressions := 1 |}.
  Definition block_ok (pending : nat) (c : bytes) (blk : block) : Prop := if pending =? 0 then cooked c blk else raw c blk.

  (** Workers that have taken [b], and those that have not yet stored its compression. *)
  Definition holds (b : id) (th : thread) : nat :=
    match th with
    | Worker (Compressing b') | Worker (Storing b' _) | Worker (Finishing b') => b2n (id_eqb b b')
    | _ => 0
    end.
  Definition busy (b : id) (th : thread) : nat :=
    match th with
    | Worker (Compressing b') | Worker (Storing b' _) => b2n (id_eqb b b')
    | _ => 0
    end.

  (** [P b] says whether [b] is still to be compressed, [N b] whether it is in one of the two sets. *)
  Definition program_ok (N : id -> nat) (t : nat) (w : writer) (cs : list bytes) : Prop :=
    match nth_error programs t with
    | None => False
    | Some p =>
        match wp w with
        | Writing => finishes w = snd p /\ split_from limit cs (top w) (todo w) = split_from limit [] [] (fst p)
        | Checking i => snd p = true /\ cs = split_from limit [] [] (fst p) /\ i <= length cs /\ forall i', i' < i -> N (t, i') = 0
        | Sleeping i => snd p = true /\ cs = split_from limit [] [] (fst p) /\ i <= length cs /\ (forall i', i' < i -> N (t, i') = 0) /\ 1 <= N (t, i)
        | Done out => snd p = true /\ out = concat (map frame (split_from limit [] [] (fst p))) /\ cs = split_from limit [] [] (fst p) /\
                      forall i, i < length cs -> N (t, i) = 0
        | Dropped => snd p = false
        end
    end.
  Definition thread_ok (P N : id -> nat) (empty : Prop) (G : id -> option block) (t : nat) (th : thread) : Prop :=
    match th with
    | Worker p => match p with
                  | WorkerSleeping => empty
                  | Storing b d => exists blk, G b = Some blk /\ d = frame (data blk)
                  | _ => True
                  end
    | Writer w => exists cs, length cs = length (full w) /\
                  (forall i blk c, nth_error (full w) i = Some blk -> nth_error cs i = Some c -> block_ok (P (t, i)) c blk) /\
                  program_ok N t w cs
    end.
  Definition pending (s : state) (b : id) : nat := cnt b (waiting s) + sum (busy b) (threads s).
  Definition marked (s : state) (b : id) : nat := cnt b (waiting s) + cnt b (working s).
  Definition is_writer (th : thread) : bool := match th with Writer _ => true | Worker _ => false end.
  Record inv (s : state) : Prop := {
    i_once : forall b, marked s b <= 1;
    i_held : forall b, cnt b (working s) = sum (holds b) (threads s);
    i_there : forall b, 1 <= marked s b -> get_block (threads s) b <> None;
    i_thread : forall t th, nth_error (threads s) t = Some th ->
               thread_ok (pending s) (marked s) (waiting s = []) (get_block (threads s)) t th }.

  (** ** Waking up *)

  Definition blocks_of (th : thread) : list block := match th with Writer w => full w | Worker _ => [] end.
  Lemma get_block_of ths b : get_block ths b = match nth_error ths (fst b) with Some th => nth_error (blocks_of th) (snd b) | None => None end.
  Proof. unfold get_block. destruct (nth_error ths (fst b)) as [[w|p]|]; try reflexivity. cbn. now destruct (snd b). Qed.
  Lemma wake_blocks th : blocks_of (wake th) = blocks_of th.
  Proof. destruct th as [w|[]]; cbn; try reflexivity. destruct (wp w) eqn:E; reflexivity. Qed.
  Lemma wake_holds b th : holds b (wake th) = holds b th.
  Proof. destruct th as [w|[]]; cbn; try reflexivity. destruct (wp w); reflexivity. Qed.
  Lemma wake_busy b th : busy b (wake th) = busy b th.
  Proof. destruct th as [w|[]]; cbn; try reflexivity. destruct (wp w); reflexivity. Qed.
  Lemma wake_writer th : is_writer (wake th) = is_writer th.
  Proof. destruct th as [w|[]]; cbn; try reflexivity. destruct (wp w); reflexivity. Qed.
  Lemma wake_ok P N e G t th : thread_ok P N e G t th -> thread_ok P N e G t (wake th).
  Proof.
    destruct th as [w|[]]; cbn [wake]; auto; [|cbn; auto].
    destruct (wp w) eqn:E; auto. cbn [thread_ok full]. intros (cs & L & B & O). exists cs. repeat split; [assumption..|].
    unfold program_ok in *. cbn [wp]. destruct (nth_error programs t); [|exact O]. rewrite E in O. tauto.
  Qed.
  Definition asleep (th : thread) : bool :=
    match th with
    | Writer w => match wp w with Sleeping _ => true | _ => false end
    | Worker WorkerSleeping => true
    | _ => false
    end.
  Lemma wake_awake th : asleep (wake th) = false.
  Proof. destruct th as [w|[]]; cbn; try reflexivity. destruct (wp w) eqn:E; cbn [asleep wp]; rewrite ?E; reflexivity. Qed.

  (** What a thread needs of the others. *)
  Lemma thread_ok_frame (P N P' N' : id -> nat) (e e' : Prop) G G' t th :
    thread_ok P N e G t th ->
    (forall i, i < length (blocks_of th) -> P' (t, i) = P (t, i)) ->
    (forall i, i < length (blocks_of th) -> N' (t, i) <= N (t, i)) ->
    (asleep th = true -> (e -> e') /\ forall i, 1 <= N (t, i) -> 1 <= N' (t, i)) ->
    (forall b, 1 <= busy b th -> G' b = G b) ->
    thread_ok P' N' e' G' t th.
  Proof.
    intros O HP HN HS HG. destruct th as [w|[]]; cbn [thread_ok] in *; auto.
    - destruct O as (cs & L & B & O). cbn [blocks_of] in *. exists cs. split; [exact L|]. split.
      + intros i blk c Nb Nc. rewrite HP; [eapply B; eauto|]. apply nth_error_Some. congruence.
      + unfold program_ok in *. destruct (nth_error programs t) as [p|]; [|exact O].
        cbn [asleep] in HS. destruct (wp w) as [|i|i|out|].
        * exact O.
        * destruct O as (F & C & Li & Z). repeat split; try assumption. intros i' Hi. specialize (Z i' Hi). specialize (HN i'). lia.
        * destruct O as (F & C & Li & Z & M). destruct (HS eq_refl) as [_ HS']. repeat split; try assumption; [|auto].
          intros i' Hi. specialize (Z i' Hi). specialize (HN i'). lia.
        * destruct O as (F & C & D & Z). repeat split; try assumption. intros i' Hi. specialize (Z i' Hi). specialize (HN i'). lia.
        * exact O.
    - apply HS; auto.
    - destruct O as (blk & Gb & D). exists blk. split; [|exact D]. rewrite HG; [exact Gb|]. cbn [busy]. rewrite id_eqb_refl. cbn. lia.
  Qed.

  Lemma busy_holds b th : busy b th <= holds b th.
  Proof. destruct th as [w|[]]; cbn; lia. Qed.
  Lemma pending_marked s b : inv s -> pending s b <= marked s b.
  Proof. intros I. unfold pending, marked. rewrite (i_held _ I). pose proof (sum_le (busy b) (holds b) (threads s) (busy_holds b)). lia. Qed.

  (** ** Steps that leave the sets and the blocks alone *)

  Lemma get_block_replace ths t th th' b : nth_error ths t = Some th -> blocks_of th' = blocks_of th ->
    get_block (replace_nth t th' ths) b = get_block ths b.
  Proof.
    intros N E. rewrite !get_block_of. destruct (Nat.eq_dec t (fst b)) as [<-|D].
    - rewrite nth_error_replace_same by (apply nth_error_Some; congruence). now rewrite N, E.
    - now rewrite nth_error_replace_other.
  Qed.
  Lemma get_block_wake ths b : get_block (map wake ths) b = get_block ths b.
  Proof.
    rewrite !get_block_of. rewrite nth_error_map. destruct (nth_error ths (fst b)); cbn; [now rewrite wake_blocks|reflexivity].
  Qed.
  Lemma sum_same {A} (g : A -> nat) t x y l : nth_error l t = Some x -> g y = g x -> sum g (replace_nth t y l) = sum g l.
  Proof. intros N E. pose proof (sum_replace g t x y l N). lia. Qed.

  Lemma local_inv s t th th' : inv s -> nth_error (threads s) t = Some th ->
    blocks_of th' = blocks_of th -> (forall b, holds b th' = holds b th) -> (forall b, busy b th' = busy b th) ->
    thread_ok (pending s) (marked s) (waiting s = []) (get_block (threads s)) t th' ->
    inv {| waiting := waiting s; working := working s; threads := replace_nth t th' (threads s) |}.
  Proof.
    intros I N B H Y O. pose proof I as [O1 O2 O3 O4].
    constructor; cbn [waiting working threads].
    - exact O1.
    - intros b. rewrite (sum_same _ _ th) by auto. apply O2.
    - intros b M. rewrite (get_block_replace _ _ th) by auto. apply O3. exact M.
    - intros t0 th0 N0. apply replace_nth_cases in N0. 
      assert (thread_ok (pending s) (marked s) (waiting s = []) (get_block (threads s)) t0 th0) as K.
      { destruct N0 as [(-> & -> & _)|[_ N0]]; auto. }
      eapply thread_ok_frame; [exact K|..].
      + intros i _. unfold pending. cbn [waiting threads]. rewrite (sum_same _ _ th) by auto. reflexivity.
      + intros i _. reflexivity.
      + intros _. split; auto.
      + intros b _. now rewrite (get_block_replace _ _ th) by auto.
  Qed.

  (** ** Marking a block *)

  Lemma get_block_grow ths t w w' blk b : nth_error ths t = Some (Writer w) -> full w' = full w ++ [blk] ->
    get_block (replace_nth t (Writer w') ths) b =
      if id_eqb b (t, length (full w)) then Some blk else get_block ths b.
  Proof.
    intros N E. rewrite !get_block_of. destruct b as [t' i]. unfold id_eqb. cbn [fst snd]. destruct (Nat.eqb_spec t' t) as [->|D].
    - rewrite nth_error_replace_same by (apply nth_error_Some; congruence). rewrite N. cbn [blocks_of andb]. rewrite E.
      destruct (Nat.eqb_spec i (length (full w))) as [->|D'].
      + rewrite nth_error_app2, Nat.sub_diag by lia. reflexivity.
      + destruct (lt_dec i (length (full w))).
        * now rewrite nth_error_app1.
        * rewrite (proj2 (nth_error_None (full w) i)) by lia. apply nth_error_None. rewrite app_length. cbn. lia.
    - cbn [andb]. now rewrite nth_error_replace_other by congruence.
  Qed.
  Lemma mark_inv s t w w' : inv s -> nth_error (threads s) t = Some (Writer w) -> wp w = Writing ->
    full w' = full w ++ [new_block (top w)] ->
    (forall N cs, length cs = length (full w) -> program_ok N t w cs -> program_ok N t w' (cs ++ [top w])) ->
    inv (mark t w' s).
  Proof.
    intros I N Wr F Pr. pose proof I as [O1 O2 O3 O4]. set (b := (t, length (full w))).
    assert (M0 : marked s b = 0).
    { destruct (marked s b) eqn:M; [reflexivity|]. exfalso. apply (O3 b); [lia|].
      unfold b. rewrite get_block_of. cbn [fst snd]. rewrite N. cbn [blocks_of]. apply nth_error_None. lia. }
    unfold mark. rewrite F, app_length. cbn [length]. replace (length (full w) + 1 - 1) with (length (full w)) by lia. fold b.
    assert (Ins : insert b (waiting s) = waiting s ++ [b]).
    { unfold insert. rewrite mem_cnt. unfold marked in M0. replace (cnt b (waiting s)) with 0 by lia. reflexivity. }
    assert (C : forall a, cnt a (waiting s ++ [b]) = cnt a (waiting s) + b2n (id_eqb a b)).
    { intros a. unfold cnt. rewrite sum_app. cbn [sum]. lia. }
    assert (Gb : forall a, get_block (map wake (replace_nth t (Writer w') (threads s))) a =
                           if id_eqb a b then Some (new_block (top w)) else get_block (threads s) a).
    { intros a. rewrite get_block_wake. now apply get_block_grow. }
    assert (Sh : forall a, sum (holds a) (map wake (replace_nth t (Writer w') (threads s))) = sum (holds a) (threads s)).
    { intros a. rewrite sum_map. rewrite (sum_ext _ (holds a)) by (intros; apply wake_holds).
      now rewrite (sum_same _ _ (Writer w)). }
    assert (Sb : forall a, sum (busy a) (map wake (replace_nth t (Writer w') (threads s))) = sum (busy a) (threads s)).
    { intros a. rewrite sum_map. rewrite (sum_ext _ (busy a)) by (intros; apply wake_busy).
      now rewrite (sum_same _ _ (Writer w)). }
    rewrite Ins. 
    set (s' := {| waiting := waiting s ++ [b]; working := working s; threads := map wake (replace_nth t (Writer w') (threads s)) |}).
    assert (Ma : forall a, marked s' a = marked s a + b2n (id_eqb a b)).
    { intros a. unfold s', marked. cbn [waiting working]. rewrite C. lia. }
    assert (Pe : forall a, pending s' a = pending s a + b2n (id_eqb a b)).
    { intros a. unfold s', pending. cbn [waiting threads]. rewrite C, Sb. lia. }
    constructor.
    - intros a. rewrite Ma. destruct (id_eqb_spec a b) as [->|]; cbn [b2n]; [lia|]. specialize (O1 a). lia.
    - intros a. unfold s'. cbn [working threads]. rewrite Sh. apply O2.
    - intros a. rewrite Ma. unfold s'. cbn [threads]. rewrite Gb. destruct (id_eqb a b); [discriminate|]. cbn [b2n].
      rewrite Nat.add_0_r. apply O3.
    - intros t0 th0 N0. unfold s' in N0. cbn [threads] in N0. apply map_nth_error_inv in N0. destruct N0 as (th & N0 & ->).
      apply replace_nth_cases in N0. destruct N0 as [(-> & -> & _)|[D N0]].
      + apply wake_ok. destruct (O4 _ _ N) as (cs & L & B & O). cbn [thread_ok].
        exists (cs ++ [top w]). rewrite F, !app_length. cbn [length]. split; [lia|]. split.
        * intros i blk c Nb Nc. rewrite Pe. destruct (lt_dec i (length (full w))) as [Hi|Hi].
          { rewrite nth_error_app1 in Nb, Nc by lia. destruct (id_eqb_spec (t, i) b) as [E|_]; [unfold b in E; injection E; lia|].
            cbn [b2n]. rewrite Nat.add_0_r. eapply B; eauto. }
          { assert (nth_error (full w ++ [new_block (top w)]) i <> None) as Hl by congruence.
            apply nth_error_Some in Hl. rewrite app_length in Hl. cbn [length] in Hl.
            assert (i = length (full w)) as -> by lia. fold b.
            rewrite nth_error_app2 in Nb, Nc by lia. rewrite L in Nc. rewrite Nat.sub_diag in Nb, Nc.
            injection Nb as <-. injection Nc as <-. rewrite id_eqb_refl. cbn [b2n]. unfold block_ok. rewrite Nat.add_1_r. reflexivity. }
        * apply Pr; [exact L|]. unfold program_ok in *. rewrite Wr in *. exact O.
      + assert (Ne : forall i, id_eqb (t0, i) b = false).
        { intros i. destruct (id_eqb_spec (t0, i) b) as [E|]; [unfold b in E; congruence|reflexivity]. }
        eapply thread_ok_frame; [apply wake_ok; exact (O4 _ _ N0)|..].
        * intros i _. rewrite Pe, Ne. cbn [b2n]. lia.
        * intros i _. rewrite Ma, Ne. cbn [b2n]. lia.
        * rewrite wake_awake. discriminate.
        * intros a Ha. unfold s'. cbn [threads]. rewrite Gb. destruct (id_eqb_spec a b) as [->|]; [|reflexivity].
          rewrite wake_busy in Ha. pose proof (sum_nth (busy b) _ _ _ N0). pose proof (pending_marked s b I). unfold pending in H0. lia.
  Qed.

  (** ** The writers *)

  Lemma blocks_cooked (P : id -> nat) t (fulls : list block) cs : length cs = length fulls ->
    (forall i blk c, nth_error fulls i = Some blk -> nth_error cs i = Some c -> block_ok (P (t, i)) c blk) ->
    (forall i, i < length cs -> P (t, i) = 0) ->
    map data fulls = map frame cs.
  Proof.
    intros L B Z. apply nth_error_ext'. intros i. rewrite !nth_error_map.
    destruct (nth_error fulls i) as [blk|] eqn:Nb, (nth_error cs i) as [c|] eqn:Nc; cbn [option_map]; try reflexivity.
    - specialize (B _ _ _ Nb Nc). rewrite Z in B by (apply nth_error_Some; congruence). unfold block_ok in B. cbn in B. now rewrite B.
    - apply nth_error_None in Nc. assert (nth_error fulls i <> None) as X by congruence. apply nth_error_Some in X. lia.
    - apply nth_error_None in Nb. assert (nth_error cs i <> None) as X by congruence. apply nth_error_Some in X. lia.
  Qed.

  Lemma writer_step_inv s t w s' : inv s -> nth_error (threads s) t = Some (Writer w) -> writer_step limit t w s = Some s' -> inv s'.
  Proof.
    intros I N E. pose proof (i_thread _ I _ _ N) as O. cbn [thread_ok] in O.
    unfold writer_step in E. destruct (wp w) as [|i|i|out|] eqn:Wp; try discriminate.
    - destruct (todo w) as [|bs rest] eqn:Td.
      + destruct (finishes w) eqn:Fi; injection E as <-.
        * apply mark_inv with (w := w); auto. intros Nn cs L O'. unfold program_ok in *. destruct (nth_error programs t) as [p|]; [|exact O'].
          rewrite Wp in O'. cbn [wp]. rewrite Td in O'. cbn [split_from] in O'. destruct O' as [O1 O2].
          repeat split; [congruence|exact O2|lia|intros; lia].
        * eapply local_inv; eauto. destruct O as (cs & L & B & O'). exists cs. cbn [full set_wp]. repeat split; auto.
          unfold program_ok in *. destruct (nth_error programs t) as [p|]; [|exact O'].
          rewrite Wp in O'. cbn [wp]. destruct O'. congruence.
      + destruct (oversized limit (top w)) eqn:Ov; injection E as <-.
        * apply mark_inv with (w := w); auto. intros Nn cs L O'. unfold program_ok in *. destruct (nth_error programs t) as [p|]; [|exact O'].
          rewrite Wp in O'. cbn [wp finishes top todo]. rewrite Td in O'. cbn [split_from] in O'. rewrite Ov in O'. exact O'.
        * eapply local_inv; eauto. destruct O as (cs & L & B & O'). exists cs. cbn [full set_wp]. repeat split; auto.
          unfold program_ok in *. destruct (nth_error programs t) as [p|]; [|exact O'].
          rewrite Wp in O'. cbn [wp finishes top todo]. rewrite Td in O'. cbn [split_from] in O'. rewrite Ov in O'. exact O'.
    - destruct O as (cs & L & B & O').
      assert (M : mem (t, i) (waiting s) || mem (t, i) (working s) = (1 <=? marked s (t, i))).
      { rewrite !mem_cnt. unfold marked. lia. }
      rewrite M in E. unfold program_ok in O'. destruct (nth_error programs t) as [p|] eqn:Np; [|contradiction]. rewrite Wp in O'.
      destruct O' as (F & C & Li & Z).
      destruct (Nat.ltb_spec i (length (full w))) as [Hi|Hi]; [destruct (Nat.leb_spec 1 (marked s (t, i))) as [Hm|Hm]|]; injection E as <-;
      (eapply local_inv; eauto; exists cs; cbn [full set_wp]; repeat split; auto; unfold program_ok; rewrite Np; cbn [wp]).
      + repeat split; auto.
      + repeat split; auto; [lia|]. intros i' Hi'. destruct (Nat.eq_dec i' i) as [->|]; [lia|]. apply Z. lia.
      + assert (i = length cs) as -> by lia. repeat split; auto. rewrite <- C. f_equal.
        apply (blocks_cooked (pending s) t); auto. intros i' Hi'. pose proof (pending_marked s (t, i') I). specialize (Z i' Hi'). lia.
  Qed.

  (** ** The workers *)

  Lemma nth_choice {A} (l : list A) x c : l <> [] -> In (nth (c mod length l) l x) l.
  Proof. intros D. apply nth_In. apply Nat.mod_upper_bound. destruct l; [congruence|cbn; lia]. Qed.

  Lemma take_inv s t b : inv s -> nth_error (threads s) t = Some (Worker Looking) -> In b (waiting s) ->
    inv {| waiting := erase b (waiting s); working := insert b (working s);
           threads := replace_nth t (Worker (Compressing b)) (threads s) |}.
  Proof.
    intros I N Hb. pose proof I as [O1 O2 O3 O4]. apply cnt_in in Hb.
    pose proof (O1 b) as Ob. unfold marked in Ob.
    assert (Ck : forall a, cnt a (insert b (working s)) = cnt a (working s) + b2n (id_eqb a b)).
    { intros a. rewrite cnt_insert, mem_cnt. replace (cnt b (working s)) with 0 by lia. reflexivity. }
    assert (Cw : forall a, cnt a (erase b (waiting s)) + b2n (id_eqb a b) = cnt a (waiting s)).
    { intros a. rewrite cnt_erase. destruct (id_eqb_spec a b) as [->|]; cbn [b2n]; lia. }
    assert (Gb : forall a, get_block (replace_nth t (Worker (Compressing b)) (threads s)) a = get_block (threads s) a).
    { intros a. eapply get_block_replace; eauto. }
    set (s' := {| waiting := _; working := _; threads := _ |}).
    assert (Ma : forall a, marked s' a = marked s a).
    { intros a. unfold s', marked. cbn [waiting working]. rewrite Ck. specialize (Cw a). lia. }
    assert (Pe : forall a, pending s' a = pending s a).
    { intros a. unfold s', pending. cbn [waiting threads]. pose proof (sum_replace (busy a) t _ (Worker (Compressing b)) _ N).
      cbn [busy] in H. specialize (Cw a). lia. }
    constructor.
    - intros a. rewrite Ma. apply O1.
    - intros a. unfold s'. cbn [working threads]. rewrite Ck, O2. pose proof (sum_replace (holds a) t _ (Worker (Compressing b)) _ N).
      cbn [holds] in H. lia.
    - intros a. rewrite Ma. unfold s'. cbn [threads]. rewrite Gb. apply O3.
    - intros t0 th0 N0. unfold s' in N0. cbn [threads] in N0. apply replace_nth_cases in N0. destruct N0 as [(-> & -> & _)|[D N0]].
      + exact Logic.I.
      + eapply thread_ok_frame; [exact (O4 _ _ N0)|..].
        * intros i _. apply Pe.
        * intros i _. now rewrite Ma.
        * intros _. split; [|intros i; now rewrite Ma]. unfold s'. cbn [waiting]. now intros ->.
        * intros a _. unfold s'. cbn [threads]. apply Gb.
  Qed.

  Lemma held_block s t p b : inv s -> nth_error (threads s) t = Some (Worker p) -> 1 <= busy b (Worker p) ->
    exists blk c, get_block (threads s) b = Some blk /\ raw c blk.
  Proof.
    intros I N Hb. pose proof I as [O1 O2 O3 O4].
    pose proof (sum_nth (busy b) _ _ _ N) as S1. pose proof (pending_marked s b I) as S2. unfold pending in S2.
    destruct (get_block (threads s) b) as [blk|] eqn:Gb; [|exfalso; apply (O3 b); [lia|exact Gb]].
    rewrite get_block_of in Gb. destruct (nth_error (threads s) (fst b)) as [th|] eqn:Nt; [|discriminate].
    destruct th as [w|q]; cbn [blocks_of] in Gb; [|destruct (snd b); discriminate].
    destruct (O4 _ _ Nt) as (cs & L & B & _). destruct (nth_error cs (snd b)) as [c|] eqn:Nc.
    - specialize (B _ _ _ Gb Nc). rewrite <- surjective_pairing in B. exists blk, c. split; [reflexivity|].
      unfold block_ok, pending in B. destruct (Nat.eqb_spec (cnt b (waiting s) + sum (busy b) (threads s)) 0); [lia|exact B].
    - apply nth_error_None in Nc. assert (nth_error (full w) (snd b) <> None) as X by congruence. apply nth_error_Some in X. lia.
  Qed.

  Lemma set_block_nth ths b blk t th : nth_error (set_block ths b blk) t = Some th ->
    (exists w, t = fst b /\ nth_error ths t = Some (Writer w) /\
       th = Writer {| todo := todo w; finishes := finishes w; full := replace_nth (snd b) blk (full w); top := top w; wp := wp w |}) \/
    (nth_error ths t = Some th /\ (t = fst b -> blocks_of th = [])).
  Proof.
    unfold set_block. destruct (nth_error ths (fst b)) as [[w|p]|] eqn:N; intros H.
    - apply replace_nth_cases in H. destruct H as [(-> & -> & _)|[D H]]; [left; eauto|right; split; [exact H|contradiction]].
    - right. split; [exact H|]. intros ->. rewrite N in H. injection H as <-. reflexivity.
    - right. split; [exact H|]. intros ->. congruence.
  Qed.
  Lemma set_block_sum (g : thread -> nat) ths b blk : (forall w, g (Writer w) = 0) -> sum g (set_block ths b blk) = sum g ths.
  Proof.
    intros Z. unfold set_block. destruct (nth_error ths (fst b)) as [[w|p]|] eqn:N; try reflexivity.
    eapply sum_same; [exact N|]. now rewrite !Z.
  Qed.
  Lemma set_block_get ths b blk old a : get_block ths b = Some old ->
    get_block (set_block ths b blk) a = if id_eqb a b then Some blk else get_block ths a.
  Proof.
    intros G. unfold set_block. rewrite get_block_of in G. destruct (nth_error ths (fst b)) as [[w|p]|] eqn:N; try discriminate; cbn [blocks_of] in G.
    2: destruct (snd b); discriminate.
    rewrite !get_block_of. destruct a as [t i], b as [t' i']. unfold id_eqb. cbn [fst snd] in *. destruct (Nat.eqb_spec t t') as [->|D].
    - rewrite nth_error_replace_same by (apply nth_error_Some; congruence). rewrite N. cbn [blocks_of full andb].
      destruct (Nat.eqb_spec i i') as [->|D'].
      + apply nth_error_replace_same. apply nth_error_Some. congruence.
      + now rewrite nth_error_replace_other by congruence.
    - cbn [andb]. now rewrite nth_error_replace_other by congruence.
  Qed.
  Lemma set_block_worker ths b blk t p : nth_error ths t = Some (Worker p) -> nth_error (set_block ths b blk) t = Some (Worker p).
  Proof.
    intros N. unfold set_block. destruct (nth_error ths (fst b)) as [[w|q]|] eqn:N'; try exact N.
    rewrite nth_error_replace_other; [exact N|]. intros E. congruence.
  Qed.

  Lemma store_inv s t b blk d : inv s -> nth_error (threads s) t = Some (Worker (Storing b d)) -> get_block (threads s) b = Some blk ->
    inv {| waiting := waiting s; working := working s;
           threads := replace_nth t (Worker (Finishing b))
                        (set_block (threads s) b {| data := d; compressed := true; compressions := S (compressions blk) |}) |}.
  Proof.
    intros I N G. pose proof I as [O1 O2 O3 O4]. set (new := {| data := d; compressed := true; compressions := S (compressions blk) |}).
    pose proof (set_block_worker _ b new _ _ N) as N1.
    assert (Gb : forall a, get_block (replace_nth t (Worker (Finishing b)) (set_block (threads s) b new)) a =
                           if id_eqb a b then Some new else get_block (threads s) a).
    { intros a. rewrite (get_block_replace _ _ (Worker (Storing b d))); [|exact N1|reflexivity]. now apply set_block_get with (old := blk). }
    pose proof (sum_nth (busy b) _ _ _ N) as S1. cbn [busy] in S1. rewrite id_eqb_refl in S1. cbn [b2n] in S1.
    pose proof (pending_marked s b I) as S2. pose proof (O1 b) as S3. 
    set (s' := {| waiting := _; working := _; threads := _ |}).
    assert (Ma : forall a, marked s' a = marked s a) by reflexivity.
    assert (Pe : forall a, pending s' a + b2n (id_eqb a b) = pending s a).
    { intros a. unfold s', pending. cbn [waiting threads]. pose proof (sum_replace (busy a) t _ (Worker (Finishing b)) _ N1).
      cbn [busy] in H. rewrite set_block_sum in H by reflexivity. lia. }
    assert (P0 : pending s' b = 0) by (specialize (Pe b); rewrite id_eqb_refl in Pe; cbn [b2n] in Pe; lia).
    assert (Pa : forall a, a <> b -> pending s' a = pending s a).
    { intros a D. specialize (Pe a). destruct (id_eqb_spec a b); [contradiction|]. cbn [b2n] in Pe. lia. }
    constructor.
    - exact O1.
    - intros a. unfold s'. cbn [working threads]. rewrite O2. symmetry.
      rewrite (sum_same _ _ (Worker (Storing b d))) by auto. now apply set_block_sum.
    - intros a. rewrite Ma. unfold s'. cbn [threads]. rewrite Gb. destruct (id_eqb a b); [discriminate|apply O3].
    - intros t0 th0 N0. unfold s' in N0. cbn [threads] in N0. apply replace_nth_cases in N0. destruct N0 as [(-> & -> & _)|[D N0]].
      + exact Logic.I.
      + apply set_block_nth in N0. destruct N0 as [(w & -> & N0 & ->)|[N0 Nb]].
        * destruct (O4 _ _ N) as (blk' & Gb' & Ed). assert (blk' = blk) as -> by congruence.
          destruct (O4 _ _ N0) as (cs & L & B & O). exists cs. cbn [full]. rewrite replace_nth_length. split; [exact L|]. split; [|exact O].
          intros i blk1 c Nb Nc. destruct (Nat.eq_dec i (snd b)) as [->|Di].
          { rewrite nth_error_replace_same in Nb by (rewrite <- L; apply nth_error_Some; congruence). injection Nb as <-.
            rewrite <- surjective_pairing, P0. unfold block_ok. cbn. 
            rewrite get_block_of, N0 in G. cbn [blocks_of] in G. specialize (B _ _ _ G Nc). rewrite <- surjective_pairing in B.
            unfold block_ok in B. destruct (Nat.eqb_spec (pending s b) 0) as [X|X]; [unfold pending in X; lia|].
            unfold raw in B. unfold cooked, new. rewrite Ed, B. reflexivity. }
          { rewrite nth_error_replace_other in Nb by congruence. rewrite Pa by (destruct b; cbn in *; congruence). eapply B; eauto. }
        * eapply thread_ok_frame; [exact (O4 _ _ N0)|..].
          { intros i Hi. apply Pa. intros E. apply (f_equal fst) in E. cbn [fst] in E. rewrite (Nb E) in Hi. cbn in Hi. lia. }
          { reflexivity. }
          { auto. }
          { intros a Ha. unfold s'. cbn [threads]. rewrite Gb. destruct (id_eqb_spec a b) as [->|]; [|reflexivity].
            exfalso. clear - N N0 D Ha S2 S3. unfold pending in S2.
            assert (X : busy b (Worker (Storing b d)) + busy b th0 <= sum (busy b) (threads s)).
            { pose proof (sum_replace (busy b) t _ (Worker Looking) _ N) as R.
              assert (nth_error (replace_nth t (Worker Looking) (threads s)) t0 = Some th0) as N1 by (rewrite nth_error_replace_other; auto).
              pose proof (sum_nth (busy b) _ _ _ N1). cbn [busy] in *. lia. }
            cbn [busy] in X. rewrite id_eqb_refl in X. cbn [b2n] in X. lia. }
  Qed.

  Lemma finish_inv s t b : inv s -> nth_error (threads s) t = Some (Worker (Finishing b)) ->
    inv {| waiting := waiting s; working := erase b (working s); threads := map wake (replace_nth t (Worker Looking) (threads s)) |}.
  Proof.
    intros I N. pose proof I as [O1 O2 O3 O4].
    pose proof (sum_nth (holds b) _ _ _ N) as S1. cbn [holds] in S1. rewrite id_eqb_refl in S1. cbn [b2n] in S1.
    rewrite <- O2 in S1. pose proof (O1 b) as S3. unfold marked in S3.
    assert (Ck : forall a, cnt a (erase b (working s)) + b2n (id_eqb a b) = cnt a (working s)).
    { intros a. rewrite cnt_erase. destruct (id_eqb_spec a b) as [->|]; cbn [b2n]; lia. }
    assert (Gb : forall a, get_block (map wake (replace_nth t (Worker Looking) (threads s))) a = get_block (threads s) a).
    { intros a. rewrite get_block_wake. eapply get_block_replace; eauto. }
    set (s' := {| waiting := _; working := _; threads := _ |}).
    assert (Ma : forall a, marked s' a <= marked s a).
    { intros a. unfold s', marked. cbn [waiting working]. specialize (Ck a). lia. }
    assert (Pe : forall a, pending s' a = pending s a).
    { intros a. unfold s', pending. cbn [waiting threads]. f_equal. rewrite sum_map, (sum_ext _ (busy a)) by (intros; apply wake_busy).
      now rewrite (sum_same _ _ (Worker (Finishing b))). }
    constructor.
    - intros a. specialize (Ma a). specialize (O1 a). lia.
    - intros a. unfold s'. cbn [working threads]. rewrite sum_map, (sum_ext _ (holds a)) by (intros; apply wake_holds).
      pose proof (sum_replace (holds a) t _ (Worker Looking) _ N) as R. cbn [holds] in R. specialize (Ck a). specialize (O2 a). lia.
    - intros a H. unfold s'. cbn [threads]. rewrite Gb. apply O3. specialize (Ma a). lia.
    - intros t0 th0 N0. unfold s' in N0. cbn [threads] in N0. apply map_nth_error_inv in N0. destruct N0 as (th & N0 & ->).
      apply replace_nth_cases in N0. destruct N0 as [(-> & -> & _)|[D N0]].
      + exact Logic.I.
      + eapply thread_ok_frame; [apply wake_ok; exact (O4 _ _ N0)|..].
        * intros i _. apply Pe.
        * intros i _. apply Ma.
        * rewrite wake_awake. discriminate.
        * intros a _. unfold s'. cbn [threads]. apply Gb.
  Qed.

  Lemma worker_step_inv s t choice p : inv s -> nth_error (threads s) t = Some (Worker p) ->
    exists o, worker_step lz4 t choice p s = Ok o /\ forall s', o = Some s' -> inv s'.
  Proof.
    intros I N. destruct p as [| |b|b d|b]; cbn [worker_step].
    - destruct (waiting s) as [|b0 l] eqn:Ew.
      + eexists; split; [reflexivity|]. intros s' [= <-]. rewrite <- Ew. eapply local_inv; eauto.
      + rewrite <- Ew. eexists; split; [reflexivity|]. intros s' [= <-]. apply take_inv; auto.
        apply nth_choice. congruence.
    - eexists; split; [reflexivity|discriminate].
    - destruct (held_block s t _ b I N) as (blk & c & Gb & R); [cbn [busy]; rewrite id_eqb_refl; cbn; lia|].
      rewrite Gb. unfold raw in R. subst blk. cbn [new_block compressed]. eexists; split; [reflexivity|]. intros s' [= <-].
      eapply local_inv; eauto. cbn [thread_ok]. eauto.
    - destruct (held_block s t _ b I N) as (blk & c & Gb & R); [cbn [busy]; rewrite id_eqb_refl; cbn; lia|].
      rewrite Gb. eexists; split; [reflexivity|]. intros s' [= <-]. now apply store_inv.
    - eexists; split; [reflexivity|]. intros s' [= <-]. now apply finish_inv.
  Qed.

  Lemma step_inv e s : inv s -> exists o, step lz4 limit e s = Ok o /\ forall s', o = Some s' -> inv s'.
  Proof.
    intros I. destruct e as [t choice|t]; cbn [step].
    - destruct (nth_error (threads s) t) as [[w|p]|] eqn:N.
      + eexists; split; [reflexivity|]. intros s' E. eapply writer_step_inv; eauto.
      + now apply worker_step_inv.
      + eexists; split; [reflexivity|discriminate].
    - destruct (nth_error (threads s) t) as [th|] eqn:N; eexists; (split; [reflexivity|]); [|discriminate].
      intros s' [= <-]. eapply local_inv; eauto using wake_blocks, wake_holds, wake_busy. apply wake_ok. now apply (i_thread _ I).
  Qed.
  Lemma run_inv schedule s : inv s -> exists s', run lz4 limit schedule s = Ok s' /\ inv s'.
  Proof.
    revert s; induction schedule as [|e schedule IH]; intros s I; cbn [run]; [eauto|].
    destruct (step_inv e s I) as ([s'|] & -> & H); auto.
  Qed.
  Lemma start_inv workers : inv (start workers programs).
  Proof.
    assert (Z : forall g, (forall w, g (Writer w) = 0) -> g (Worker Looking) = 0 -> sum g (threads (start workers programs)) = 0).
    { intros g H1 H2. cbn [start threads]. rewrite sum_app, sum_map. rewrite (sum_ext _ (fun _ => 0)) by (intros; apply H1).
      assert (forall k, sum g (repeat (Worker Looking) k) = 0) as -> by (induction k; cbn [repeat sum]; lia).
      induction programs; cbn [sum]; lia. }
    constructor.
    - intros b. cbn. lia.
    - intros b. now rewrite Z.
    - intros b H. cbn in H. lia.
    - intros t th N. cbn [start threads] in N. destruct (lt_dec t (length programs)) as [L|L].
      + rewrite nth_error_app1 in N by (rewrite map_length; lia). apply map_nth_error_inv in N. destruct N as (p & N & ->).
        exists []. cbn [full length]. split; [reflexivity|]. split.
        * intros i blk c X. destruct i; discriminate.
        * unfold program_ok. rewrite N. cbn. auto.
      + rewrite nth_error_app2 in N by (rewrite map_length; lia). apply nth_error_In, repeat_spec in N. subst th. exact Logic.I.
  Qed.
End Proofs.
