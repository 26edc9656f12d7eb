(** Proofs about changing the case of text and bytes. *)
From Coq Require Import List ZArith Lia Bool ZifyBool ZifyNat.
From Verif Require Import Base Text_Model TextCase_Model TextCase_Spec.
Import ListNotations.
Open Scope Z_scope.
Open Scope list_scope.

(** ** The memory of the loops *)

Lemma zlen_app : forall A (a b : list A), zlen (a ++ b) = zlen a + zlen b.
Proof. intros A a b. unfold zlen. rewrite app_length. lia. Qed.
Lemma zlen_cons : forall A (a : A) b, zlen (a :: b) = zlen b + 1.
Proof. intros A a b. unfold zlen. cbn [length]. lia. Qed.
Lemma zlen_pos : forall A (a : list A), 0 <= zlen a.
Proof. intros A a. unfold zlen. lia. Qed.

Lemma wrap_small : forall x, - 2 ^ 31 <= x < 2 ^ 31 -> wrap_s 32 x = x.
Proof.
  intros x H. unfold wrap_s, wrap_u. cbv zeta. change (2 ^ (32 - 1)) with (2 ^ 31). change (2 ^ 32) with 4294967296. change (2 ^ 31) with 2147483648 in *.
  destruct (Z_lt_le_dec x 0) as [N | N].
  - rewrite <- (Z.mod_unique x 4294967296 (-1) (x + 4294967296)) by lia. destruct (_ <? _) eqn:E; lia.
  - rewrite Z.mod_small by lia. destruct (_ <? _) eqn:E; lia.
Qed.

Lemma write_all_ok : forall w cs m, 0 < w -> (zlen (written m) + zlen cs) * w <= room m ->
  write_all w m cs = Ok (mk_memory (written m ++ map (wrap_u (8 * w)) cs) (room m) (new_pointcount m) (allocated_points m) (increment m)).
Proof.
  intros w cs. induction cs as [|c r IH]; intros m W H; cbn [write_all map].
  - rewrite app_nil_r. now destruct m.
  - rewrite zlen_cons in H. assert (P := zlen_pos _ r). unfold write.
    destruct (Z.leb_spec ((zlen (written m) + 1) * w) (room m)) as [_ | B]; [|nia].
    cbn [bind]. rewrite IH; cbn [written room new_pointcount allocated_points increment].
    + now rewrite <- app_assoc.
    + exact W.
    + rewrite zlen_app, zlen_cons. unfold zlen at 2. cbn [length]. lia.
Qed.

Section Loop.
Variables (St : Type) (choose : St -> Z -> option (list Z) * St) (w : Z) (len : Z).
Hypothesis W : 0 < w <= 4.
Hypothesis L : 0 <= len <= 2 ^ 26.
Hypothesis short : forall s c buf, fst (choose s c) = Some buf -> 1 <= zlen buf <= 3.

(** What the loop writes. *)
Fixpoint produce (cs : list Z) (s : St) : list Z :=
  match cs with
  | nil => nil
  | c :: r => match fst (choose s c) with None => [c] | Some buf => buf end ++ produce r (snd (choose s c))
  end.

Definition inv (rest : Z) (m : memory) : Prop :=
  0 <= rest <= len /\ new_pointcount m = zlen (written m) + rest /\ new_pointcount m <= allocated_points m /\
  room m = allocated_points m * w /\ len <= allocated_points m <= 4 * len + 8 /\ 8 <= increment m /\
  2 * increment m <= 16 + (allocated_points m - len) /\ zlen (written m) <= 3 * (len - rest).

Lemma begin_inv : inv len (begin w len).
Proof.
  unfold inv, begin, bytes_for. cbn [written room new_pointcount allocated_points increment].
  change (zlen (@nil Z)) with 0. change (2 ^ 26) with 67108864 in *. rewrite wrap_small by (change (2 ^ 31) with 2147483648; nia). lia.
Qed.

Lemma make_room_inv : forall rest m n, inv (rest + 1) m -> 0 <= rest -> 1 <= n <= 3 ->
  let m' := make_room w n m in
  written m' = written m /\ new_pointcount m' = zlen (written m) + rest + n /\ new_pointcount m' <= allocated_points m' /\
  room m' = allocated_points m' * w /\ len <= allocated_points m' <= 4 * len + 8 /\ 8 <= increment m' /\
  2 * increment m' <= 16 + (allocated_points m' - len).
Proof.
  intros rest m n (R & P & A & B & C & I & J & K) R0 N. change (2 ^ 26) with 67108864 in *. unfold make_room.
  assert (Q := zlen_pos _ (written m)).
  destruct (Z.ltb_spec 1 n) as [M | M]; [|cbv zeta; repeat split; try lia; auto].
  rewrite (wrap_small (new_pointcount m + (n - 1))) by (change (2 ^ 31) with 2147483648; lia). cbv zeta.
  destruct (Z.ltb_spec (allocated_points m) (new_pointcount m + (n - 1))) as [G | G];
    cbn [written room new_pointcount allocated_points increment]; [|repeat split; try lia; auto].
  unfold bytes_for.
  rewrite (wrap_small (allocated_points m + increment m)) by (change (2 ^ 31) with 2147483648; lia).
  rewrite (wrap_small (increment m * 3)) by (change (2 ^ 31) with 2147483648; lia).
  rewrite wrap_small by (change (2 ^ 31) with 2147483648; nia).
  rewrite Z.quot_div_nonneg by lia.
  assert (D := Z.div_mod (increment m * 3) 2 ltac:(lia)). assert (E := Z.mod_pos_bound (increment m * 3) 2 ltac:(lia)).
  repeat split; lia.
Qed.

Lemma case_loop_ok : forall cs s m, inv (zlen cs) m ->
  exists m', case_loop choose w cs s m = Ok m' /\ inv 0 m' /\ written m' = written m ++ map (wrap_u (8 * w)) (produce cs s).
Proof.
  induction cs as [|c r IH]; intros s m V.
  - exists m. cbn [case_loop produce map]. rewrite app_nil_r. auto.
  - rewrite zlen_cons in V. cbn [case_loop produce]. assert (Q := zlen_pos _ r).
    destruct (choose s c) as [what s'] eqn:E. cbn [fst snd].
    assert (X : exists m1, match what with None => write w m c | Some buf => write_all w (make_room w (zlen buf) m) buf end = Ok m1 /\
      inv (zlen r) m1 /\ written m1 = written m ++ map (wrap_u (8 * w)) (match what with None => [c] | Some buf => buf end)).
    { destruct what as [buf|].
      - assert (N := short s c buf). rewrite E in N. specialize (N eq_refl).
        destruct (make_room_inv (zlen r) m (zlen buf) V Q N) as (A & B & C & D & F & G & H).
        assert (K := zlen_pos _ (written m)). destruct V as (R & _ & _ & _ & _ & _ & _ & T).
        rewrite write_all_ok; [|lia|rewrite A, D; nia]. eexists. split; [reflexivity|].
        unfold inv. cbn [written room new_pointcount allocated_points increment]. rewrite A.
        split; [|reflexivity]. rewrite zlen_app. replace (zlen (map (wrap_u (8 * w)) buf)) with (zlen buf) by (unfold zlen; now rewrite map_length).
        repeat split; lia.
      - destruct V as (R & A & B & C & D & F & G & H). unfold write.
        assert (K := zlen_pos _ (written m)).
        destruct (Z.leb_spec ((zlen (written m) + 1) * w) (room m)) as [_ | O]; [|nia].
        eexists. split; [reflexivity|]. unfold inv. cbn [written room new_pointcount allocated_points increment map].
        split; [|reflexivity]. rewrite zlen_app. change (zlen [wrap_u (8 * w) c]) with 1. repeat split; lia. }
    destruct X as (m1 & X & I & Y). rewrite X. cbn [bind]. destruct (IH s' m1 I) as (m2 & Z2 & I2 & W2).
    exists m2. split; [exact Z2|]. split; [exact I2|]. now rewrite W2, Y, map_app, app_assoc.
Qed.

Lemma finish_ok : forall m, inv 0 m -> finish w m = Ok (Some (mk_slayout w (written m))).
Proof.
  intros m (R & A & B & C & D & F & G & H). unfold finish, bytes_for. change (2 ^ 26) with 67108864 in *. assert (K := zlen_pos _ (written m)).
  rewrite wrap_small by (change (2 ^ 31) with 2147483648; nia).
  destruct (new_pointcount m <? allocated_points m) eqn:E; replace (new_pointcount m) with (zlen (written m)) by lia;
    rewrite Z.eqb_refl, (proj2 (Z.leb_le _ _)) by nia; reflexivity.
Qed.
End Loop.
Arguments produce {St}.

Lemma cut_range : forall w c, 0 < w -> 0 <= wrap_u (8 * w) c < 2 ^ (8 * w).
Proof. intros w c W. unfold wrap_u. apply Z.mod_pos_bound. apply Z.pow_pos_nonneg; lia. Qed.

Lemma change_case_ok : forall St (choose : St -> Z -> option (list Z) * St) s0 s,
  (forall s c buf, fst (choose s c) = Some buf -> 1 <= zlen buf <= 3) -> stored s -> slen s <= 2 ^ 26 ->
  gives s (change_case choose s0 s) (cut s (produce choose (sdata s) s0)).
Proof.
  intros St choose s0 [l|] short H L.
  - destruct H as (W & F). unfold change_case. unfold slen in L. cbn [sdata] in *.
    set (w := bytes_per_codepoint l) in *. assert (W' : 0 < w <= 4) by (cbn [In] in W; lia).
    assert (L' : 0 <= zlen (codepoints l) <= 2 ^ 26) by (split; [apply zlen_pos|exact L]).
    destruct (case_loop_ok St choose w (zlen (codepoints l)) W' L' short (codepoints l) s0 _ ltac:(eapply begin_inv; eauto)) as (m & E & I & R).
    rewrite E. cbn [bind]. assert (FI : finish w m = Ok (Some (mk_slayout w (written m)))) by (eapply finish_ok; eauto). rewrite FI. exists (Some (mk_slayout w (written m))).
    split; [reflexivity|]. cbn [sdata codepoints swidth bytes_per_codepoint stored]. rewrite R. cbn [written begin app].
    split; [reflexivity|]. split; [|split; [reflexivity|split; discriminate]]. split; [exact W|].
    apply Forall_forall. intros x J. apply in_map_iff in J. destruct J as (y & <- & _). apply cut_range. lia.
  - exists None. repeat split; reflexivity.
Qed.

(** ** What the loops write is what Python writes *)

Lemma contexts_flat : forall (f : Z -> list Z) (g : list Z * Z * list Z -> list Z) cs before,
  (forall b c a, In (b, c, a) (contexts before cs) -> g (b, c, a) = f c) -> flat_map g (contexts before cs) = flat_map f cs.
Proof.
  intros f g cs. induction cs as [|c r IH]; intros before H; cbn [contexts flat_map]; [reflexivity|].
  rewrite H by now left. f_equal. apply IH. intros b d a J. apply H. now right.
Qed.

Lemma produce_each : forall f cs u, produce (each f) cs u = flat_map f cs.
Proof. intros f cs. induction cs as [|c r IH]; intros u; cbn [produce flat_map each fst snd]; [reflexivity|now rewrite IH]. Qed.

Section Tables.
Variable t : tables.
Hypothesis P : proper t.

Definition no_final_from (before cs : list Z) : Prop := forall b c a, In (b, c, a) (contexts before cs) -> lower_at t (b, c, a) = to_lower t c.
Lemma no_final : forall cs, no_final_sigma t cs -> no_final_from nil cs.
Proof.
  intros cs N b c a J. unfold lower_at. destruct (Z.eqb_spec c sigma) as [-> | _]; [|reflexivity].
  now rewrite (N b a J), (lower_sigma t P).
Qed.
Lemma no_final_tail : forall before c cs, no_final_from before (c :: cs) -> lower_at t (before, c, cs) = to_lower t c /\ no_final_from (c :: before) cs.
Proof. intros before c cs N. split; [apply N; now left|]. intros b d a J. apply N. now right. Qed.

Lemma produce_lower : forall cs, no_final_sigma t cs -> produce (each (to_lower t)) cs tt = python_lower t cs.
Proof. intros cs N. rewrite produce_each. symmetry. apply contexts_flat. exact (no_final cs N). Qed.
Lemma produce_swap : forall cs u, no_final_sigma t cs -> produce (choose_swap t) cs u = python_swapcase t cs.
Proof.
  intros cs u N. unfold python_swapcase.
  rewrite (contexts_flat (fun c => if is_uppercase t c then to_lower t c else if is_lowercase t c then to_upper t c else [c])).
  - clear N. revert u. induction cs as [|c r IH]; intros u; cbn [produce flat_map]; [reflexivity|].
    rewrite IH. f_equal. unfold choose_swap. cbn [fst]. assert (O := one_case t P c).
    destruct (is_uppercase t c), (is_lowercase t c); cbn; try reflexivity. now specialize (O eq_refl).
  - intros b c a J. now rewrite (no_final cs N b c a J).
Qed.
Lemma produce_capital : forall cs, no_final_sigma t cs -> produce (choose_capital t) cs true = python_capitalize t false cs.
Proof.
  intros [|c r] N; [reflexivity|]. unfold python_capitalize. cbn [contexts flat_map produce choose_capital fst snd]. f_equal.
  assert (X : forall cs before, no_final_from before cs -> before <> nil ->
    produce (choose_capital t) cs false = flat_map (fun x => let '(b, c, _) := x in match b with nil => to_upper t c | _ => lower_at t x end) (contexts before cs)).
  { clear c r N. induction cs as [|c r IH]; intros before N B; cbn [contexts flat_map produce choose_capital fst snd]; [reflexivity|].
    destruct (no_final_tail _ _ _ N) as (E & N'). destruct before as [|d b]; [contradiction|]. rewrite E. f_equal. apply IH; [exact N'|discriminate]. }
  apply X; [|discriminate]. apply (no_final_tail _ _ _ (no_final _ N)).
Qed.
Lemma produce_title : forall cs, no_final_sigma t cs -> Forall (plain t) cs -> produce (choose_title t) cs false = python_title t cs.
Proof.
  intros cs N F. unfold python_title.
  assert (X : forall cs before, no_final_from before cs -> Forall (plain t) cs ->
    produce (choose_title t) cs (match before with d :: _ => is_cased t d | nil => false end) =
    flat_map (fun x => let '(b, c, _) := x in match b with d :: _ => if is_cased t d then lower_at t x else to_title t c | nil => to_title t c end) (contexts before cs)).
  { clear cs N F. induction cs as [|c r IH]; intros before N F; cbn [contexts flat_map]; [reflexivity|].
    destruct (no_final_tail _ _ _ N) as (LO & N').
    assert (C := Forall_inv F). assert (F' := Forall_inv_tail F). specialize (IH (c :: before) N' F'). cbv iota in IH.
    destruct C as (A & T). cbn [produce]. unfold choose_title at 1 3.
    rewrite A. destruct (is_cased t c) eqn:K.
    - destruct before as [|d b]; [cbn [fst snd]; now rewrite IH|]. destruct (is_cased t d); cbn [fst snd]; rewrite IH; [now rewrite LO|reflexivity].
    - destruct (T eq_refl) as (T1 & T2). destruct before as [|d b]; [cbn [fst snd]; now rewrite IH, T1|].
      destruct (is_cased t d); cbn [fst snd]; rewrite IH; [now rewrite LO, T2|now rewrite T1]. }
  apply (X cs nil (no_final _ N) F).
Qed.
End Tables.

(** ** The methods *)

Lemma cut_fit : forall s cs, fit s cs -> cut s cs = cs.
Proof.
  intros s cs F. unfold cut. induction F as [|c r C F IH]; cbn [map]; [reflexivity|]. rewrite IH. f_equal. apply Z.mod_small. exact C.
Qed.

Section Methods.
Variables (t : tables) (s : str).
Hypotheses (P : proper t) (St : stored s) (L : slen s <= 2 ^ 26).

Lemma upper_gives : gives s (str_upper t s) (cut s (python_upper t (sdata s))).
Proof.
  unfold python_upper. rewrite <- (produce_each _ _ tt). apply change_case_ok; auto. intros u c buf E. injection E as <-. apply (one_to_three t P).
Qed.
Lemma casefold_gives : gives s (str_casefold t s) (cut s (python_casefold t (sdata s))).
Proof.
  unfold python_casefold. rewrite <- (produce_each _ _ tt). apply change_case_ok; auto. intros u c buf E. injection E as <-. apply (one_to_three t P).
Qed.
Lemma lower_gives : no_final_sigma t (sdata s) -> gives s (str_lower t s) (cut s (python_lower t (sdata s))).
Proof.
  intros N. rewrite <- (produce_lower t P) by exact N. apply change_case_ok; auto. intros u c buf E. injection E as <-. apply (one_to_three t P).
Qed.
Lemma swapcase_gives : no_final_sigma t (sdata s) -> gives s (str_swapcase t s) (cut s (python_swapcase t (sdata s))).
Proof.
  intros N. rewrite <- (produce_swap t P _ tt) by exact N. apply change_case_ok; auto. intros u c buf E.
  unfold choose_swap in E. cbn [fst] in E. assert (O := one_to_three t P c).
  destruct (is_lowercase t c), (is_uppercase t c); cbn in E; try discriminate; injection E as <-; tauto.
Qed.
Lemma capitalize_gives : no_final_sigma t (sdata s) -> gives s (str_capitalize t s) (cut s (python_capitalize t false (sdata s))).
Proof.
  intros N. rewrite <- (produce_capital t P) by exact N. apply change_case_ok; auto. intros u c buf E.
  unfold choose_capital in E. cbn [fst] in E. assert (O := one_to_three t P c). destruct u; injection E as <-; tauto.
Qed.
Lemma title_gives : no_final_sigma t (sdata s) -> Forall (plain t) (sdata s) -> gives s (str_title t s) (cut s (python_title t (sdata s))).
Proof.
  intros N F. rewrite <- (produce_title t P) by assumption. apply change_case_ok; auto. intros u c buf E.
  unfold choose_title in E. assert (O := one_to_three t P c). destruct u, (is_alphabetic t c); cbn [fst] in E; try discriminate; injection E as <-; tauto.
Qed.

(** Whatever the characters are, the methods stay in their memory. *)
Lemma methods_end : forall m, In m [str_upper t; str_lower t; str_casefold t; str_capitalize t; str_swapcase t; str_title t] ->
  exists s', m s = Ok s' /\ stored s' /\ swidth s' = swidth s.
Proof.
  assert (X : forall T (choose : T -> Z -> option (list Z) * T) s0, (forall s c buf, fst (choose s c) = Some buf -> 1 <= zlen buf <= 3) ->
    exists s', change_case choose s0 s = Ok s' /\ stored s' /\ swidth s' = swidth s).
  { intros T choose s0 H. destruct (change_case_ok T choose s0 s H St L) as (s' & A & _ & B & C & _). eauto. }
  intros m J. cbn [In] in J. destruct J as [<- | [<- | [<- | [<- | [<- | [<- | []]]]]]]; apply X; clear X; intros u c buf E;
    assert (O := one_to_three t P c).
  - injection E as <-. tauto.
  - injection E as <-. tauto.
  - injection E as <-. tauto.
  - unfold choose_capital in E. cbn [fst] in E. destruct u; injection E as <-; tauto.
  - unfold choose_swap in E. cbn [fst] in E. destruct (is_lowercase t c), (is_uppercase t c); cbn in E; try discriminate; injection E as <-; tauto.
  - unfold choose_title in E. destruct u, (is_alphabetic t c); cbn [fst] in E; try discriminate; injection E as <-; tauto.
Qed.
End Methods.

(** ** ASCII *)

Lemma c_range : forall c, 0 <= c < 128 -> 0 <= c_toupper c < 128 /\ 0 <= c_tolower c < 128.
Proof. intros c H. unfold c_toupper, c_tolower, c_upper, c_lower. destruct (_ && _) eqn:A, ((65 <=? c) && _) eqn:B; lia. Qed.

Lemma flat_single : forall (f : Z -> list Z) g cs, (forall c, In c cs -> f c = [g c]) -> flat_map f cs = map g cs.
Proof.
  intros f g cs. induction cs as [|c r IH]; intros H; cbn [flat_map map]; [reflexivity|]. rewrite H by now left. cbn [app]. f_equal.
  apply IH. intros d J. apply H. now right.
Qed.
Lemma contexts_single : forall (f : list Z * Z * list Z -> list Z) g cs before,
  (forall x, In x (contexts before cs) -> f x = [g x]) -> flat_map f (contexts before cs) = map g (contexts before cs).
Proof.
  intros f g cs. induction cs as [|c r IH]; intros before H; cbn [contexts flat_map map]; [reflexivity|]. rewrite H by now left. cbn [app]. f_equal.
  apply IH. intros d J. apply H. now right.
Qed.
Lemma contexts_in : forall cs before b c a, In (b, c, a) (contexts before cs) -> In c cs.
Proof.
  induction cs as [|d r IH]; intros before b c a J; cbn [contexts In] in *; [contradiction|]. destruct J as [E | J]; [injection E as _ <- _; now left|right; eauto].
Qed.
Lemma contexts_map : forall (f : Z -> Z) cs before, map (fun x : list Z * Z * list Z => f (snd (fst x))) (contexts before cs) = map f cs.
Proof. intros f cs. induction cs as [|c r IH]; intros before; cbn [contexts map fst snd]; [reflexivity|]. now rewrite IH. Qed.

Lemma title_loop_right : forall l before,
  title_loop (match before with d :: _ => c_alpha d | nil => false end) l = map title_at (contexts before l).
Proof.
  induction l as [|c r IH]; intros before; cbn [title_loop contexts map]; [reflexivity|].
  assert (X := IH (c :: before)). cbv iota in X. unfold title_at at 1.
  assert (N : c_alpha c = false -> c_tolower c = c /\ c_toupper c = c).
  { unfold c_alpha, c_tolower, c_toupper. destruct (c_upper c), (c_lower c); cbn; intuition congruence. }
  destruct (c_alpha c) eqn:A; [|destruct (N eq_refl) as (N1 & N2)];
    (destruct before as [|d b]; [|destruct (c_alpha d)]); rewrite X; congruence.
Qed.

Lemma capitalize_contexts : forall x, bdata (bytes_capitalize x) =
  map (fun y => let '(b, c, _) := y in match b with nil => c_toupper c | _ => c_tolower c end) (contexts nil (bdata x)).
Proof.
  intros x. destruct x as [[|c r]|]; [reflexivity| |reflexivity]. cbn [bytes_capitalize bdata contexts map]. f_equal.
  assert (G : forall l before, before <> nil -> map c_tolower l =
    map (fun y : list Z * Z * list Z => let '(b, c, _) := y in match b with nil => c_toupper c | _ => c_tolower c end) (contexts before l)).
  { clear. induction l as [|c r IH]; intros before N; cbn [contexts map]; [reflexivity|]. rewrite (IH (c :: before)) by discriminate.
    destruct before; [contradiction|reflexivity]. }
  now apply G.
Qed.

Section Ascii.
Variables (t : tables) (s : str) (x : bytes).
Hypotheses (P : proper t) (A : knows_ascii t) (L : slen s <= 2 ^ 26) (W : In (swidth s) [1; 2; 4]).
Hypotheses (E : sdata s = bdata x) (F : Forall (fun c => 0 <= c < 128) (bdata x)).

Lemma ascii_in : forall c, In c (sdata s) -> 0 <= c < 128.
Proof. rewrite E. now apply Forall_forall. Qed.
Lemma ascii_stored : stored s.
Proof.
  assert (I := ascii_in). destruct s as [l|]; [|exact Logic.I]. cbn [stored swidth sdata] in *. split; [exact W|].
  apply Forall_forall. intros c J. specialize (I c J). cbn [In] in W. destruct W as [<- | [<- | [<- | []]]]; cbn; lia.
Qed.
Lemma ascii_fit : forall cs, Forall (fun c => 0 <= c < 128) cs -> fit s cs.
Proof.
  intros cs. apply Forall_impl. intros c C. cbn [In] in W. destruct W as [<- | [<- | [<- | []]]]; cbn; lia.
Qed.
Lemma ascii_no_sigma : no_final_sigma t (sdata s).
Proof. intros b a J. apply contexts_in in J. apply ascii_in in J. unfold sigma in J. lia. Qed.
Lemma ascii_lower_at : forall b c a, In c (sdata s) -> lower_at t (b, c, a) = [c_tolower c].
Proof.
  intros b c a J. apply ascii_in in J. unfold lower_at. destruct (Z.eqb_spec c sigma) as [-> | _]; [unfold sigma in J; lia|]. apply A. exact J.
Qed.
Lemma ascii_plain : Forall (plain t) (sdata s).
Proof.
  apply Forall_forall. intros c J. apply ascii_in in J. destruct (A c J) as (A1 & A2 & A3 & A4 & A5 & A6 & A7 & A8).
  unfold plain. rewrite A7, A8. split; [reflexivity|]. intros N. rewrite A2, A3. unfold c_alpha in N. apply orb_false_iff in N. destruct N as (N1 & N2).
  unfold c_toupper, c_tolower. now rewrite N1, N2.
Qed.

Lemma gives_fit : forall r cs y, gives s r (cut s cs) -> cs = bdata y -> Forall (fun c => 0 <= c < 128) (bdata y) -> exists s', r = Ok s' /\ sdata s' = bdata y.
Proof.
  intros r cs y (s' & R & D & _) C G. exists s'. split; [exact R|]. rewrite D, C. apply cut_fit. now apply ascii_fit.
Qed.
Lemma bdata_map : forall f : Z -> Z, bdata (match x with None => None | Some l => Some (map f l) end) = map f (bdata x).
Proof. intros f. destruct x; reflexivity. Qed.
Lemma map_range : forall f : Z -> Z, (forall c, 0 <= c < 128 -> 0 <= f c < 128) -> Forall (fun c => 0 <= c < 128) (map f (bdata x)).
Proof. intros f H. apply Forall_forall. intros d J. apply in_map_iff in J. destruct J as (c & <- & J). apply H. rewrite Forall_forall in F. auto. Qed.
Lemma contexts_range : forall f : list Z * Z * list Z -> Z, (forall b c a, 0 <= c < 128 -> 0 <= f (b, c, a) < 128) ->
  Forall (fun c => 0 <= c < 128) (map f (contexts nil (bdata x))).
Proof.
  intros f H. apply Forall_forall. intros d J. apply in_map_iff in J. destruct J as ([[b c] a] & <- & J). apply H. apply contexts_in in J.
  rewrite Forall_forall in F. auto.
Qed.

Lemma ascii_methods :
  (exists s', str_upper t s = Ok s' /\ sdata s' = bdata (bytes_upper x)) /\ (exists s', str_lower t s = Ok s' /\ sdata s' = bdata (bytes_lower x)) /\
  (exists s', str_casefold t s = Ok s' /\ sdata s' = bdata (bytes_lower x)) /\
  (exists s', str_capitalize t s = Ok s' /\ sdata s' = bdata (bytes_capitalize x)) /\
  (exists s', str_swapcase t s = Ok s' /\ sdata s' = bdata (bytes_swapcase x)) /\ (exists s', str_title t s = Ok s' /\ sdata s' = bdata (bytes_title x)).
Proof.
  assert (S1 := ascii_stored). assert (N := ascii_no_sigma). assert (R := c_range).
  assert (SW : forall c, 0 <= c < 128 -> 0 <= (if c_lower c then c_toupper c else if c_upper c then c_tolower c else c) < 128).
  { intros c C. specialize (R c C). destruct (c_lower c), (c_upper c); lia. }
  repeat apply conj.
  - eapply gives_fit; [apply upper_gives; assumption| |].
    + unfold bytes_upper. rewrite bdata_map, <- E. apply flat_single. intros c J. apply A. now apply ascii_in.
    + unfold bytes_upper. rewrite bdata_map. apply map_range. intros c C. now apply R.
  - eapply gives_fit; [apply lower_gives; assumption| |].
    + unfold bytes_lower. rewrite bdata_map, <- E. rewrite <- (contexts_map c_tolower _ nil). apply contexts_single. intros [[b c] a] J. apply ascii_lower_at.
      eapply contexts_in; eauto.
    + unfold bytes_lower. rewrite bdata_map. apply map_range. intros c C. now apply R.
  - eapply gives_fit; [apply casefold_gives; assumption| |].
    + unfold bytes_lower. rewrite bdata_map, <- E. apply flat_single. intros c J. apply A. now apply ascii_in.
    + unfold bytes_lower. rewrite bdata_map. apply map_range. intros c C. now apply R.
  - eapply gives_fit; [apply capitalize_gives; assumption| |].
    + rewrite capitalize_contexts, <- E. apply contexts_single. intros [[b c] a] J. apply contexts_in in J.
      destruct b as [|d b]; [apply A; now apply ascii_in|now apply ascii_lower_at].
    + rewrite capitalize_contexts. apply contexts_range. intros b c a C. specialize (R c C). destruct b; lia.
  - eapply gives_fit; [apply swapcase_gives; assumption| |].
    + unfold bytes_swapcase. rewrite bdata_map, <- E. rewrite <- (contexts_map (fun c => if c_lower c then c_toupper c else if c_upper c then c_tolower c else c) _ nil).
      apply contexts_single. intros [[b c] a] J. apply contexts_in in J. cbn [fst snd]. rewrite (ascii_lower_at b c a J). apply ascii_in in J.
      destruct (A c J) as (A1 & A2 & A3 & A4 & A5 & A6 & A7 & A8). rewrite A5, A6, A1.
      destruct (c_upper c) eqn:U, (c_lower c) eqn:V; try reflexivity. unfold c_upper, c_lower in U, V. lia.
    + unfold bytes_swapcase. rewrite bdata_map. now apply map_range.
  - eapply gives_fit; [apply title_gives; [assumption..|apply ascii_plain]| |].
    + replace (bdata (bytes_title x)) with (title_loop false (bdata x)) by (destruct x; reflexivity).
      rewrite (title_loop_right (bdata x) nil), <- E. apply contexts_single. intros [[b c] a] J.
      assert (K := contexts_in _ _ _ _ _ J). destruct (A c (ascii_in c K)) as (A1 & A2 & A3 & _).
      destruct b as [|d b]; [exact A3|]. unfold title_at.
      assert (D : In d (sdata s)).
      { clear - J. assert (G : forall cs before b c a d, In (d :: b, c, a) (contexts before cs) -> In d before \/ In d cs).
        { induction cs as [|e r IH]; intros before b0 c0 a0 d0 H; cbn [contexts In] in *; [contradiction|]. destruct H as [H | H].
          - injection H as -> _ _. left. now left.
          - apply IH in H. cbn [In] in H. tauto. }
        apply G in J. cbn [In] in J. tauto. }
      destruct (A d (ascii_in d D)) as (_ & _ & _ & _ & _ & _ & _ & A8). rewrite A8. destruct (c_alpha d); [now apply ascii_lower_at|exact A3].
    + replace (bdata (bytes_title x)) with (title_loop false (bdata x)) by (destruct x; reflexivity).
      rewrite (title_loop_right (bdata x) nil). apply contexts_range. intros b c a C. specialize (R c C). unfold title_at. destruct b as [|d b]; [|destruct (c_alpha d)]; lia.
Qed.
End Ascii.

(** ** Large text *)

Lemma large_text : forall t l, bytes_per_codepoint l = 4 -> 2 ^ 29 <= zlen (codepoints l) < 2 ^ 30 - 8 -> proper t ->
  str_upper t (Some l) = Err UndefinedBehaviour.
Proof.
  intros t l W B P. unfold str_upper, change_case. rewrite W. change (2 ^ 29) with 536870912 in B. change (2 ^ 30) with 1073741824 in B.
  destruct (codepoints l) as [|c r] eqn:E; [change (zlen (@nil Z)) with 0 in B; lia|]. rewrite <- E in *. set (n := zlen (codepoints l)) in *.
  assert (R : bytes_for n 4 < 0).
  { unfold bytes_for, wrap_s. cbv zeta. change (2 ^ (32 - 1)) with 2147483648. change (2 ^ 32) with 4294967296. rewrite Z.mod_small by lia.
    destruct (Z.ltb_spec (n * 4) 2147483648); lia. }
  rewrite E. cbn [case_loop each].
  assert (K := one_to_three t P c). destruct K as (K & _).
  assert (M : written (make_room 4 (zlen (to_upper t c)) (begin 4 n)) = nil /\ room (make_room 4 (zlen (to_upper t c)) (begin 4 n)) < 4).
  { unfold make_room. destruct (Z.ltb_spec 1 (zlen (to_upper t c))) as [G | G]; [|split; [reflexivity|cbn; lia]].
    cbn [begin written room new_pointcount allocated_points increment]. cbv zeta. rewrite (wrap_small (n + _)) by (change (2 ^ 31) with 2147483648; lia).
    rewrite (proj2 (Z.ltb_lt _ _)) by lia. rewrite (wrap_small (n + 8)) by (change (2 ^ 31) with 2147483648; lia).
    cbn [written room]. split; [reflexivity|].
    unfold bytes_for, wrap_s. cbv zeta. change (2 ^ (32 - 1)) with 2147483648. change (2 ^ 32) with 4294967296.
    rewrite Z.mod_small by lia. destruct (Z.ltb_spec ((n + 8) * 4) 2147483648); lia. }
  destruct M as (M1 & M2). destruct (to_upper t c) as [|d ds] eqn:U; [change (zlen (@nil Z)) with 0 in K; lia|].
  cbn [write_all]. unfold write. rewrite M1. change (zlen (@nil Z)) with 0.
  destruct (Z.leb_spec ((0 + 1) * 4) (room (make_room 4 (zlen (d :: ds)) (begin 4 n)))) as [H | H]; [lia|reflexivity].
Qed.
