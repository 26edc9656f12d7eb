(** Proofs about orders of classes, single dispatch tables and pointers, for Disp_Proofs. *)
From Coq Require Import ZifyBool ZifyNat.
From Verif Require Import Base Class_Model Class_Spec Class_Proofs Disp_Model Disp_Spec.
Open Scope list_scope.
Open Scope result_scope.

(** ** Lists *)

Lemma nth_error_set : forall A (l : list A) i x j, (i < length l)%nat ->
  nth_error (set_nth l i x) j = if Nat.eqb j i then Some x else nth_error l j.
Proof.
  intros A l i x j L. unfold set_nth. assert (E : length (firstn i l) = i) by (apply firstn_length_le; lia).
  destruct (Nat.eqb_spec j i) as [->|N].
  - rewrite nth_error_app2 by lia. rewrite E, Nat.sub_diag. reflexivity.
  - destruct (Nat.lt_ge_cases j i) as [X|X].
    + rewrite nth_error_app1 by lia. rewrite <- (firstn_skipn i l) at 2. now rewrite nth_error_app1 by lia.
    + rewrite nth_error_app2 by lia. rewrite E. destruct (j - i)%nat as [|d] eqn:D; [lia|]. cbn [nth_error].
      rewrite <- (firstn_skipn (S i) l) at 2. assert (E' : length (firstn (S i) l) = S i) by (apply firstn_length_le; lia).
      rewrite nth_error_app2 by lia. rewrite E'. f_equal. lia.
Qed.
Lemma set_nth_length : forall A (l : list A) i x, (i < length l)%nat -> length (set_nth l i x) = length l.
Proof.
  intros A l i x L. unfold set_nth. rewrite app_length. cbn [length]. rewrite firstn_length, skipn_length. lia.
Qed.

Lemma nth_error_repeat : forall A (x : A) n i, (i < n)%nat -> nth_error (repeat x n) i = Some x.
Proof. intros A x. induction n as [|n IH]; intros [|i] L; try lia; cbn; [reflexivity|]. apply IH. lia. Qed.

Lemma NoDup_nth : forall A (l : list A) i j x, NoDup l -> nth_error l i = Some x -> nth_error l j = Some x -> i = j.
Proof.
  intros A l i j x N E F. rewrite NoDup_nth_error in N. apply N; [|congruence]. apply nth_error_Some. congruence.
Qed.

(** ** Orders *)

Lemma order_nth : forall w c a i, sound w -> mro_index w c a = Some i <-> nth_error (order_of w c) i = Some a.
Proof.
  intros w c a i S. unfold mro_index, order_of. destruct (nth_error w c) as [k|] eqn:N.
  - apply mro_index_right. destruct (S c k N) as (M & _).
    now destruct (python_mro_facts _ (sound_before w S) c _ M) as (? & ? & ? & _ & _ & _ & X & _).
  - split; [discriminate|]. destruct i; discriminate.
Qed.
Lemma order_nodup : forall w c, sound w -> NoDup (order_of w c).
Proof.
  intros w c S. unfold order_of. destruct (nth_error w c) as [k|] eqn:N; [|constructor]. destruct (S c k N) as (M & _).
  now destruct (python_mro_facts _ (sound_before w S) c _ M) as (? & ? & ? & _ & _ & _ & X & _).
Qed.
Lemma order_ancestor : forall w c a, sound w -> In a (order_of w c) <-> ancestor (bases_of w) c a.
Proof.
  intros w c a S. unfold order_of. destruct (nth_error w c) as [k|] eqn:N.
  - destruct (S c k N) as (M & _). now apply python_mro_ancestors.
  - split; [intros []|]. intros A. exfalso. destruct A as [c bs B|c bs b a B _ _]; apply nth_bases_inv in B;
      destruct B as (k & B & _); congruence.
Qed.
Lemma order_subclass : forall w c a, is_subclass w c a = true <-> In a (order_of w c).
Proof.
  intros w c a. unfold is_subclass, order_of. destruct (nth_error w c) as [k|]; [|split; [discriminate|intros []]].
  unfold mem. rewrite existsb_exists. split.
  - intros (x & I & E). apply Nat.eqb_eq in E. now subst x.
  - intros I. exists a. split; [exact I|apply Nat.eqb_refl].
Qed.
Lemma order_head : forall w c, sound w -> (c < length w)%nat -> nth_error (order_of w c) 0 = Some c.
Proof.
  intros w c S L. unfold order_of. destruct (nth_error w c) as [k|] eqn:N; [|apply nth_error_None in N; lia].
  destruct (S c k N) as (M & _). now destruct (python_mro_facts _ (sound_before w S) c _ M) as (? & ? & ? & _ & _ & -> & _).
Qed.
Lemma order_exists : forall w c a, In a (order_of w c) -> (c < length w)%nat.
Proof.
  intros w c a I. unfold order_of in I. destruct (nth_error w c) as [k|] eqn:N; [|destruct I]. apply nth_error_Some. congruence.
Qed.
Lemma ancestor_trans : forall D c a b, ancestor D c a -> ancestor D a b -> ancestor D c b.
Proof. intros D c a b A B. induction A as [|c bs x a N I A IH]; [exact B|]. eapply ancestor_base; eauto. Qed.
Lemma order_trans : forall w c a b, sound w -> In a (order_of w c) -> In b (order_of w a) -> In b (order_of w c).
Proof.
  intros w c a b S I J. apply order_ancestor; [exact S|]. apply order_ancestor in I; [|exact S].
  apply order_ancestor in J; [|exact S]. eapply ancestor_trans; eauto.
Qed.
Lemma order_le : forall w c a, sound w -> In a (order_of w c) -> (a <= c)%nat.
Proof. intros w c a S I. apply order_ancestor in I; [|exact S]. exact (ancestor_le _ (sound_before w S) c a I). Qed.

Lemma order_again : forall w d c, order_of (merge_again w d) c = order_of w c.
Proof.
  intros w d c. unfold order_of. assert (E := merge_again_map _ c_mro w d (fun k k' _ _ H _ => H)).
  assert (F : nth_error (map c_mro (merge_again w d)) c = nth_error (map c_mro w) c) by now rewrite E.
  rewrite !nth_error_map in F. destruct (nth_error (merge_again w d) c), (nth_error w c); cbn in F; congruence.
Qed.
Lemma final_again : forall w d c, is_final (merge_again w d) c = is_final w c.
Proof.
  intros w d c. unfold is_final. assert (E := merge_again_map _ c_body w d (fun k k' _ H _ _ => H)).
  assert (F : nth_error (map c_body (merge_again w d)) c = nth_error (map c_body w) c) by now rewrite E.
  rewrite !nth_error_map in F. destruct (nth_error (merge_again w d) c), (nth_error w c); cbn in F; congruence.
Qed.
Lemma order_more : forall w k c, (c < length w)%nat -> order_of (w ++ [k]) c = order_of w c.
Proof. intros w k c L. unfold order_of. now rewrite nth_error_app1. Qed.
Lemma final_more : forall w k c, (c < length w)%nat -> is_final (w ++ [k]) c = is_final w c.
Proof. intros w k c L. unfold is_final. now rewrite nth_error_app1. Qed.

(** No class inherits from a final one. *)
Definition finals (w : world) : Prop := forall c a, In a (order_of w c) -> is_final w a = true -> c = a.

(** ** Slots *)

(** The signatures of a table after [s] was asked for. *)
Definition extend (ss : list Z) (s : Z) : list Z := if in_dec Z.eq_dec s ss then ss else ss ++ [s].
Lemma extend_in : forall ss s, In s (extend ss s).
Proof. intros ss s. unfold extend. destruct (in_dec Z.eq_dec s ss); [assumption|]. apply in_or_app. right. now left. Qed.
Lemma extend_twice : forall ss s, extend (extend ss s) s = extend ss s.
Proof. intros ss s. unfold extend at 1. destruct (in_dec Z.eq_dec s (extend ss s)) as [|N]; [reflexivity|]. destruct N. apply extend_in. Qed.
Lemma extend_keeps : forall ss s i x, nth_error ss i = Some x -> nth_error (extend ss s) i = Some x.
Proof.
  intros ss s i x N. unfold extend. destruct (in_dec Z.eq_dec s ss); [exact N|]. now apply nth_error_more.
Qed.
Lemma extend_nodup : forall ss s, NoDup ss -> NoDup (extend ss s).
Proof.
  intros ss s N. unfold extend. destruct (in_dec Z.eq_dec s ss) as [|X]; [exact N|].
  apply NoDup_Add with (a := s) (l := ss); [|now split]. rewrite <- (app_nil_r ss) at 1. apply Add_app.
Qed.

Definition numbered (ss : list Z) : list (Z * nat) := combine ss (seq 0 (length ss)).
Definition listed (ss : list Z) : list (nat * Z) := combine (seq 0 (length ss)) ss.

Lemma combine_snoc : forall A B (l : list A) (m : list B) a b, length l = length m -> combine (l ++ [a]) (m ++ [b]) = combine l m ++ [(a, b)].
Proof.
  intros A B. induction l as [|x l IH]; intros [|y m] a b E; cbn in *; try discriminate; [reflexivity|]. f_equal. apply IH. lia.
Qed.
Lemma numbered_snoc : forall ss s, numbered (ss ++ [s]) = numbered ss ++ [(s, length ss)].
Proof.
  intros ss s. unfold numbered. rewrite app_length. cbn [length]. rewrite Nat.add_1_r, seq_S, Nat.add_0_l.
  apply combine_snoc. now rewrite seq_length.
Qed.
Lemma listed_snoc : forall ss s, listed (ss ++ [s]) = listed ss ++ [(length ss, s)].
Proof.
  intros ss s. unfold listed. rewrite app_length. cbn [length]. rewrite Nat.add_1_r, seq_S, Nat.add_0_l.
  apply combine_snoc. now rewrite seq_length.
Qed.
Lemma numbered_length : forall ss, length (numbered ss) = length ss.
Proof. intros ss. unfold numbered. rewrite combine_length, seq_length. lia. Qed.

Lemma find_slot_from : forall ss k s, 
  match find_slot (combine ss (seq k (length ss))) s with
  | Some i => (k <= i)%nat /\ nth_error ss (i - k) = Some s
  | None => ~ In s ss
  end.
Proof.
  induction ss as [|x ss IH]; intros k s; cbn [length seq combine find_slot]; [easy|].
  destruct (Z.eqb_spec x s) as [->|N]; [rewrite Nat.sub_diag; split; [lia|reflexivity]|].
  specialize (IH (S k) s). destruct (find_slot (combine ss (seq (S k) (length ss))) s) as [i|].
  - destruct IH as (L & E). split; [lia|]. destruct (i - k)%nat as [|d] eqn:D; [lia|]. cbn [nth_error]. rewrite <- E. f_equal. lia.
  - intros [X|X]; auto.
Qed.
Lemma find_definition_from : forall ss k i s, nth_error ss i = Some s ->
  find_definition (combine (seq k (length ss)) ss) (k + i) = Some s.
Proof.
  induction ss as [|x ss IH]; intros k [|i] s E; cbn [length seq combine find_definition nth_error] in *; try discriminate.
  - injection E as ->. now rewrite Nat.add_0_r, Nat.eqb_refl.
  - destruct (Nat.eqb_spec k (k + S i)) as [X|X]; [lia|]. replace (k + S i)%nat with (S k + i)%nat by lia. now apply IH.
Qed.

(** What is true of the table of class [c] as [a] with the slots [ss]. *)
Record table_ok (w : world) (installed : list (nat * nat * nat)) (c a : nat) (ss : list Z) (t : table) : Prop := {
  ok_impl : t_impl t = c;
  ok_iface : t_iface t = a;
  ok_indices : t_indices t = numbered ss;
  ok_definitions : t_definitions t = listed ss;
  ok_nodup : NoDup ss;
  ok_used : t_used t = length ss;
  ok_allocated : t_allocated t = length (t_ptrs t);
  ok_room : (length ss <= length (t_ptrs t))%nat;
  ok_slots : forall i s, nth_error ss i = Some s ->
    nth_error (t_ptrs t) i = Some (Code c s) \/
    nth_error (t_ptrs t) i = Some Null /\ In i (t_needing t) /\ ~ In (a, c, i) installed;
  ok_installed : forall i, In (a, c, i) installed -> (i < length ss)%nat;
  ok_upcast : Forall2 (fun x u => exists i, nth_error (order_of w c) i = Some x /\ u = Z.of_nat i) (order_of w a) (t_upcast t)
}.

Lemma mem_in : forall c l, mem c l = true <-> In c l.
Proof.
  intros c l. unfold mem. rewrite existsb_exists. split.
  - intros (x & I & E). apply Nat.eqb_eq in E. now subst x.
  - intros I. exists c. split; [exact I|apply Nat.eqb_refl].
Qed.

Lemma allocate_in_right : forall w ins c a ss t s, table_ok w ins c a ss t ->
  exists i t', allocate_in t s = Ok (i, t') /\ table_ok w ins c a (extend ss s) t' /\ nth_error (extend ss s) i = Some s.
Proof.
  intros w ins c a ss t s K. unfold allocate_in. rewrite (ok_indices _ _ _ _ _ _ K).
  assert (F := find_slot_from ss 0 s). fold (numbered ss) in F. destruct (find_slot (numbered ss) s) as [i|].
  - destruct F as (_ & F). rewrite Nat.sub_0_r in F. exists i, t. unfold extend.
    destruct (in_dec Z.eq_dec s ss) as [I|N]; [now split|]. exfalso. apply N. eapply nth_error_In; exact F.
  - unfold extend. destruct (in_dec Z.eq_dec s ss) as [I|N]; [contradiction|]. rewrite app_length, numbered_length. cbn [length].
    rewrite (ok_used _ _ _ _ _ _ K), Nat.add_1_r, Nat.eqb_refl.
    set (ptrs := if Nat.leb (t_allocated t) (length ss) then _ else t_ptrs t).
    assert (KP : length ptrs = if Nat.leb (t_allocated t) (length ss) then ((t_allocated t + 1) * 2)%nat else t_allocated t).
    { unfold ptrs. assert (R := ok_room _ _ _ _ _ _ K). assert (A := ok_allocated _ _ _ _ _ _ K).
      destruct (Nat.leb_spec (t_allocated t) (length ss)) as [L|L]; [|lia].
      rewrite app_length, firstn_length, repeat_length. lia. }
    assert (KL : (length ss < length ptrs)%nat).
    { rewrite KP. destruct (Nat.leb_spec (t_allocated t) (length ss)) as [L|L]; [|lia].
      assert (R := ok_room _ _ _ _ _ _ K). assert (A := ok_allocated _ _ _ _ _ _ K). lia. }
    assert (KN : forall i, (i < length ss)%nat -> nth_error ptrs i = nth_error (t_ptrs t) i).
    { intros i L. unfold ptrs. assert (R := ok_room _ _ _ _ _ _ K).
      destruct (Nat.leb (t_allocated t) (length ss)); [|reflexivity].
      rewrite nth_error_app1 by (rewrite firstn_length_le; lia).
      rewrite <- (firstn_skipn (length ss) (t_ptrs t)) at 2. now rewrite nth_error_app1 by (rewrite firstn_length_le; lia). }
    eexists (length ss), _. split; [reflexivity|]. split.
    + constructor; cbn [t_impl t_iface t_ptrs t_upcast t_allocated t_used t_indices t_definitions t_needing].
      * apply (ok_impl _ _ _ _ _ _ K).
      * apply (ok_iface _ _ _ _ _ _ K).
      * now rewrite numbered_snoc.
      * rewrite listed_snoc. now rewrite (ok_definitions _ _ _ _ _ _ K).
      * assert (X := extend_nodup ss s (ok_nodup _ _ _ _ _ _ K)). unfold extend in X.
        destruct (in_dec Z.eq_dec s ss); [contradiction|exact X].
      * rewrite app_length. cbn [length]. lia.
      * rewrite set_nth_length by exact KL. now rewrite KP.
      * rewrite set_nth_length by exact KL. rewrite app_length. cbn [length]. lia.
      * intros i x E. rewrite nth_error_set by exact KL. destruct (Nat.eqb_spec i (length ss)) as [->|X].
        -- right. split; [reflexivity|]. split; [now left|]. intros I. apply (ok_installed _ _ _ _ _ _ K) in I. lia.
        -- assert (L : (i < length ss)%nat).
           { assert (H : nth_error (ss ++ [s]) i <> None) by congruence. apply nth_error_Some in H. rewrite app_length in H.
             cbn [length] in H. lia. }
           rewrite nth_error_app1 in E by exact L. rewrite KN by exact L.
           destruct (ok_slots _ _ _ _ _ _ K i x E) as [H|(H1 & H2 & H3)]; [now left|]. right. split; [exact H1|]. split; [now right|exact H3].
      * intros i I. apply (ok_installed _ _ _ _ _ _ K) in I. rewrite app_length. lia.
      * apply (ok_upcast _ _ _ _ _ _ K).
    + rewrite nth_error_app2 by lia. now rewrite Nat.sub_diag.
Qed.

Lemma define_right : forall w ins c a ss t i s, table_ok w ins c a ss t -> nth_error ss i = Some s ->
  exists t', define t i c s = Ok t' /\ table_ok w ((a, c, i) :: ins) c a ss t' /\ nth_error (t_ptrs t') i = Some (Code c s).
Proof.
  intros w ins c a ss t i s K E. unfold define.
  assert (L : (i < length (t_ptrs t))%nat).
  { assert (R := ok_room _ _ _ _ _ _ K). assert (H : nth_error ss i <> None) by congruence. apply nth_error_Some in H. lia. }
  assert (LS : (i < length ss)%nat) by (apply nth_error_Some; congruence).
  destruct (ok_slots _ _ _ _ _ _ K i s E) as [H|(H1 & H2 & H3)].
  - rewrite (nth_error_nth _ _ Uninitialised H). cbn [is_code]. rewrite Nat.eqb_refl, Z.eqb_refl. cbn [andb].
    exists t. split; [reflexivity|]. split; [|exact H]. destruct K as [k1 k2 k3 k4 k5 k6 k7 k8 k9 k10 k11]. constructor; auto.
    + intros j x F. destruct (Nat.eq_dec j i) as [->|X]; [left; congruence|].
      destruct (k9 j x F) as [G|(G1 & G2 & G3)]; [now left|]. right. split; [exact G1|]. split; [exact G2|].
      intros [I|I]; [congruence|now apply G3].
    + intros j [I|I]; [injection I as <-; exact LS|]. now apply k10.
  - rewrite (nth_error_nth _ _ Uninitialised H1). cbn [is_code]. apply mem_in in H2. rewrite H2.
    eexists. split; [reflexivity|].
    assert (N : nth_error (set_nth (t_ptrs t) i (Code c s)) i = Some (Code c s))
      by (rewrite nth_error_set by exact L; now rewrite Nat.eqb_refl).
    split; [|exact N]. destruct K as [k1 k2 k3 k4 k5 k6 k7 k8 k9 k10 k11].
    constructor; cbn [t_impl t_iface t_ptrs t_upcast t_allocated t_used t_indices t_definitions t_needing]; auto.
    + now rewrite set_nth_length by exact L.
    + now rewrite set_nth_length by exact L.
    + intros j x F. rewrite nth_error_set by exact L. destruct (Nat.eqb_spec j i) as [->|X]; [left; congruence|].
      destruct (k9 j x F) as [G|(G1 & G2 & G3)]; [now left|]. right. split; [exact G1|]. split.
      * apply filter_In. split; [exact G2|]. apply negb_true_iff, Nat.eqb_neq. exact X.
      * intros [I|I]; [congruence|now apply G3].
    + intros j [I|I]; [injection I as <-; exact LS|]. now apply k10.
Qed.

Lemma definition_right : forall w ins c a ss t i s, table_ok w ins c a ss t -> nth_error ss i = Some s ->
  find_definition (t_definitions t) i = Some s.
Proof.
  intros w ins c a ss t i s K E. rewrite (ok_definitions _ _ _ _ _ _ K). unfold listed.
  exact (find_definition_from ss 0 i s E).
Qed.

(** Installing another pair's slot changes nothing. *)
Lemma table_ok_installed : forall w ins c a ss t c' a' i, table_ok w ins c a ss t -> (a', c') <> (a, c) ->
  table_ok w ((a', c', i) :: ins) c a ss t.
Proof.
  intros w ins c a ss t c' a' i K N. destruct K as [k1 k2 k3 k4 k5 k6 k7 k8 k9 k10 k11]. constructor; auto.
  - intros j x F. destruct (k9 j x F) as [G|(G1 & G2 & G3)]; [now left|]. right. split; [exact G1|]. split; [exact G2|].
    intros [I|I]; [congruence|now apply G3].
  - intros j [I|I]; [congruence|now apply k10].
Qed.

(** ** Upcasts *)

Lemma upcasts_right : forall w c order, sound w -> (Z.of_nat (length (order_of w c)) < 65535)%Z ->
  (forall a, In a order -> In a (order_of w c)) ->
  exists l, upcasts w c order = Ok l /\
    Forall2 (fun x u => exists i, nth_error (order_of w c) i = Some x /\ u = Z.of_nat i) order l.
Proof.
  intros w c order S B. induction order as [|a order IH]; intros I; cbn [upcasts]; [now exists nil|].
  assert (J := I a (or_introl eq_refl)). apply In_nth_error in J. destruct J as (i & J).
  assert (M := proj2 (order_nth w c a i S) J). rewrite M. cbn [or_fail bind].
  destruct IH as (l & -> & F); [intros x X; apply I; now right|]. cbn [bind]. eexists. split; [reflexivity|].
  assert (L : (i < length (order_of w c))%nat) by (apply nth_error_Some; congruence).
  constructor; [|exact F]. exists i. split; [exact J|]. apply Z.mod_small. lia.
Qed.

(** ** Pointers *)

Definition place (address : Z) (i : nat) : Z := (address + Z.of_nat i * 281474976710656)%Z.
Lemma low48_mod : forall p, Z.land p low48 = Z.modulo p 281474976710656.
Proof. intros p. change low48 with (Z.ones 48). rewrite Z.land_ones by lia. reflexivity. Qed.
Lemma place_low : forall address i, (0 <= address < 281474976710656)%Z -> Z.land (place address i) low48 = address.
Proof. intros address i L. rewrite low48_mod. unfold place. rewrite Z.mod_add by lia. now apply Z.mod_small. Qed.
Lemma place_index : forall address i, (0 <= address < 281474976710656)%Z -> dispatch_index (place address i) = i.
Proof.
  intros address i L. unfold dispatch_index, place. rewrite Z.shiftr_div_pow2 by lia. change (2 ^ 48)%Z with 281474976710656%Z.
  rewrite Z.div_add by lia. rewrite Z.div_small by exact L. lia.
Qed.
Lemma shift_small : forall i, (Z.of_nat i < 65536)%Z ->
  Z.modulo (Z.shiftl (Z.of_nat i) 48) two64 = (Z.of_nat i * 281474976710656)%Z.
Proof.
  intros i L. rewrite Z.shiftl_mul_pow2 by lia. change (2 ^ 48)%Z with 281474976710656%Z. apply Z.mod_small. unfold two64. lia.
Qed.
Lemma tagged_place : forall address i, (0 <= address < 281474976710656)%Z -> (Z.of_nat i < 65536)%Z ->
  tagged address i = place address i.
Proof.
  intros address i L B. unfold tagged, place. rewrite (Z.mod_small (Z.of_nat i)) by lia. rewrite shift_small by exact B.
  apply Z.mod_small. unfold two64. lia.
Qed.
