(** Proofs about text in cells. *)
From Coq Require Import List ZArith Lia ZifyBool ZifyNat.
From Verif Require Import Base PyList Text_Model TextSearch_Model TextSplit_Model TextEdit_Model Utf8_Model Utf8_Spec Utf8_Proofs TextCell_Model TextCell_Spec.
Import ListNotations.
Open Scope Z_scope.
Open Scope list_scope.

Definition in_cell (w c : Z) : Prop := 0 <= c < 2 ^ (8 * w).
Definition width_ok (w : Z) : Prop := w = 1 \/ w = 2 \/ w = 4.
Lemma holds_eq : forall s, holds s <-> width_ok (swidth s) /\ Forall (in_cell (swidth s)) (sdata s).
Proof. reflexivity. Qed.
Lemma holds_none : holds None.
Proof. split; [left; reflexivity|constructor]. Qed.
Lemma in_cell_wider : forall w v c, in_cell w c -> w <= v -> in_cell v c.
Proof.
  intros w v c [A B] L. split; [exact A|]. eapply Z.lt_le_trans; [exact B|]. apply Z.pow_le_mono_r; lia.
Qed.
Lemma holds_wider : forall s w, holds s -> swidth s <= w -> Forall (in_cell w) (sdata s).
Proof. intros s w [_ H] L. revert H. apply Forall_impl. intros c C. now apply in_cell_wider with (swidth s). Qed.
Lemma part_forall : forall (P : Z -> Prop) l a b, Forall P l -> Forall P (sub_list l a b).
Proof.
  intros P l a b F. unfold sub_list. rewrite Forall_forall in *. intros x X. apply F.
  rewrite <- (firstn_skipn (Z.to_nat a) l). apply in_or_app. right.
  rewrite <- (firstn_skipn (Z.to_nat (b - a)) (skipn (Z.to_nat a) l)). apply in_or_app. now left.
Qed.

(** ** Operations *)

Lemma holds_slice : forall x a b, holds x -> holds (getsubstr x a b).
Proof.
  intros [l|] a b H; [|exact holds_none]. unfold getsubstr.
  destruct ((_ <? _) || _); cbv zeta; match goal with |- holds (if ?c then _ else _) => destruct c end; try exact holds_none;
    (split; [exact (proj1 H)|]); cbn [sdata swidth bytes_per_codepoint codepoints]; apply part_forall; exact (proj2 H).
Qed.
Lemma holds_concat : forall x y, holds x -> holds y -> holds (str_concat x y).
Proof.
  intros [a|] [b|] HX HY; cbn [str_concat]; try assumption. split; cbn [sdata swidth bytes_per_codepoint codepoints].
  - destruct HX as [WX _], HY as [WY _]. cbn [swidth] in *. lia.
  - apply Forall_app. split; [apply (holds_wider (Some a))|apply (holds_wider (Some b))]; auto; cbn [swidth]; lia.
Qed.
Lemma repeat_forall : forall (P : Z -> Prop) n l, Forall P l -> Forall P (repeat_list n l).
Proof. intros P n l F. induction n as [|n IH]; cbn [repeat_list]; [constructor|]. apply Forall_app. auto. Qed.
Lemma holds_mult : forall x n, holds x -> holds (str_mult x n).
Proof.
  intros [l|] n H; cbn [str_mult]; [|exact holds_none]. destruct (n <=? 0); [exact holds_none|].
  split; [exact (proj1 H)|]. cbn [sdata swidth bytes_per_codepoint codepoints]. apply repeat_forall. exact (proj2 H).
Qed.
Lemma cread_in : forall l i c, cread l i = Ok c -> In c l.
Proof.
  intros l i c. unfold cread. destruct ((0 <=? i) && (i <? zlen l)) eqn:E; [|discriminate]. intros X. injection X as <-.
  apply nth_In. unfold zlen in E. lia.
Qed.
Lemma holds_item : forall x i y, holds x -> str_getitem x i = Ok y -> holds y.
Proof.
  intros x i y H. unfold str_getitem. destruct (_ || _); [discriminate|]. destruct x as [l|]; [|intros E; injection E as <-; exact holds_none].
  destruct (slen (Some l) =? 1); [intros E; injection E as <-; exact H|]. cbv zeta.
  match goal with |- context [cread ?l ?i] => destruct (cread l i) as [c|] eqn:C end; cbn [bind]; [|discriminate]. intros E. injection E as <-.
  split; [exact (proj1 H)|]. cbn [sdata swidth bytes_per_codepoint codepoints]. constructor; [|constructor].
  destruct H as [_ F]. rewrite Forall_forall in F. apply F. cbn [sdata]. eapply cread_in; eauto.
Qed.
Lemma join_forall : forall (P : Z -> Prop) sep items, Forall P sep -> (forall i, In i items -> Forall P i) -> Forall P (join_data sep items).
Proof.
  intros P sep items S. induction items as [|x r IH]; intros F; cbn [join_data]; [constructor|]. destruct r as [|y r'].
  - apply F. now left.
  - rewrite !Forall_app. split; [apply F; now left|]. split; [exact S|]. apply IH. intros i I. apply F. now right.
Qed.
Lemma fold_max : forall l a, a <= fold_left Z.max l a /\ (forall x, In x l -> x <= fold_left Z.max l a) /\
  (fold_left Z.max l a = a \/ In (fold_left Z.max l a) l).
Proof.
  induction l as [|x r IH]; intros a; cbn [fold_left]; [split; [lia|]; split; [intros x []|now left]|].
  destruct (IH (Z.max a x)) as (A & B & C). split; [lia|]. split.
  - intros y [-> | I]; [lia|auto].
  - destruct C as [C|C]; [|right; now right]. destruct (Z.max_spec a x) as [[_ M]|[_ M]]; rewrite C, M; [right; now left|now left].
Qed.
Lemma upgrade_data : forall x w, sdata (upgrade_code_points x w) = sdata x.
Proof. now intros [l|] w. Qed.
Lemma holds_join : forall sep items, holds sep -> (forall i, In i items -> holds i) -> holds (str_join sep items).
Proof.
  intros sep items HS HI. destruct items as [|x r]; [exact holds_none|]. unfold str_join.
  set (base := match sep with Some l => Z.max 0 (bytes_per_codepoint l) | None => 0 end).
  set (items := x :: r) in *. destruct (fold_max (map swidth items) base) as (A & B & C). set (w := fold_left Z.max _ _) in *.
  assert (WI : forall i, In i items -> swidth i <= w) by (intros i I; apply B; now apply in_map).
  assert (WS : sdata sep = nil \/ swidth sep <= w).
  { destruct sep as [l|]; [right|left; reflexivity]. cbn [swidth]. unfold base in A. lia. }
  assert (X1 : 1 <= w). { assert (X := WI x (or_introl eq_refl)). destruct (HI x (or_introl eq_refl)) as [? _]. lia. }
  split; cbn [sdata swidth bytes_per_codepoint codepoints].
  - destruct C as [C|C].
    + destruct sep as [l|]; unfold base in C; [|lia]. destruct HS as [W _]. cbn [swidth] in W. lia.
    + apply in_map_iff in C. destruct C as (i & E & I). destruct (HI i I) as [W _]. lia.
  - apply join_forall.
    + rewrite upgrade_data. destruct WS as [E|L]; [rewrite E; constructor|now apply holds_wider].
    + intros i I. apply in_map_iff in I. destruct I as (j & <- & J). rewrite upgrade_data. apply holds_wider; auto.
Qed.
Lemma holds_lit : forall d, Forall (in_cell 1) d -> holds (str_lit d).
Proof. intros [|c r] F; [exact holds_none|]. split; [left; reflexivity|exact F]. Qed.

(** ** Functions that are written with these operations *)

Section Closed.
Context {T : Type} (o : text_ops T) (P : T -> Prop).
Hypothesis Pslice : forall x a b, P x -> P (t_slice o x a b).
Hypothesis Pjoin : forall sep items, P sep -> (forall i, In i items -> P i) -> P (t_join o sep items).
Hypothesis Pconcat : forall x y, P x -> P y -> P (t_concat o x y).
Hypothesis Pmult : forall x n, P x -> P (t_mult o x n).
Hypothesis Pnil : P (t_lit o nil).
Hypothesis Pblank : P (t_lit o [32]).
Hypothesis Pzero : P (t_lit o [48]).

Lemma replace_loop_closed : forall fuel x old max pos seen out ys, P x -> (forall y, In y out -> P y) ->
  replace_loop o fuel x old max pos seen out = Ok ys -> forall y, In y ys -> P y.
Proof.
  induction fuel as [|fuel IH]; intros x old max pos seen out ys X O E; cbn [replace_loop] in E; [discriminate|].
  match goal with H : context [bind ?r _] |- _ => destruct r as [next|]; cbn [bind] in H; [|discriminate] end.
  destruct ((0 <=? next) && _).
  - eapply IH; [exact X| |exact E]. intros y I. apply in_app_or in I. destruct I as [I|[<-|[]]]; auto.
  - injection E as <-. intros y I. apply in_app_or in I. destruct I as [I|[<-|[]]]; auto.
Qed.
Lemma replace_closed : forall old_python x old new max y, P x -> P new -> replace_text o old_python x old new max = Ok y -> P y.
Proof.
  intros old_python x old new max y X N. unfold replace_text. cbv zeta.
  destruct (max =? 0); [intros E; injection E as <-; exact X|].
  destruct (_ && (t_len o old =? 0)); [destruct old_python; intros E; injection E as <-; assumption|].
  match goal with |- context [bind ?r _] => destruct r as [out|] eqn:R; cbn [bind]; [|discriminate] end.
  intros E. injection E as <-. apply Pjoin; [exact N|]. eapply replace_loop_closed; [exact X| |exact R].
  destruct (t_len o old =? 0); intros z; [intros [<-|[]]; exact Pnil|intros []].
Qed.
Lemma center_closed : forall x width fill, P x -> P fill -> P (center_text o x width fill).
Proof. intros. unfold center_text. destruct (width <=? t_len o x); auto. Qed.
Lemma ljust_closed : forall x width fill, P x -> P fill -> P (ljust_text o x width fill).
Proof. intros. unfold ljust_text. destruct (width <=? t_len o x); auto. Qed.
Lemma rjust_closed : forall x width fill, P x -> P fill -> P (rjust_text o x width fill).
Proof. intros. unfold rjust_text. destruct (width <=? t_len o x); auto. Qed.
Lemma justify_closed : forall f, (forall x width fill, P x -> P fill -> P (f x width fill)) ->
  forall x width fill y, P x -> (forall c, fill = Some c -> P c) -> justify_call o f x width fill = Ok y -> P y.
Proof.
  intros f F x width [c|] y X C; cbn [justify_call].
  - destruct (t_len o c =? 1); [|discriminate]. intros E. injection E as <-. auto.
  - intros E. injection E as <-. auto.
Qed.
Lemma tabs_loop_closed : forall n x tabsize i col last out z ys, P x -> (forall y, In y out -> P y) ->
  tabs_loop o n x tabsize i col last out = Ok (z, ys) -> forall y, In y ys -> P y.
Proof.
  induction n as [|n IH]; intros x tabsize i col last out z ys X O E; cbn [tabs_loop] in E; [injection E as _ <-; exact O|].
  destruct (t_at_is o x i 9) as [tab|]; cbn [bind] in E; [|discriminate]. destruct tab.
  - eapply IH; [exact X| |exact E]. intros y I. apply in_app_or in I. destruct I as [I|[<-|[<-|[]]]]; auto.
  - destruct (t_at_is o x i 10) as [nl|]; cbn [bind] in E; [|discriminate].
    destruct (t_at_is o x i 13) as [cr|]; cbn [bind] in E; [|discriminate]. eapply IH; eauto.
Qed.
Lemma tabs_closed : forall x tabsize y, P x -> expandtabs_text o x tabsize = Ok y -> P y.
Proof.
  intros x tabsize y X. unfold expandtabs_text. destruct (tabs_loop _ _ _ _ _ _ _ _) as [[z ys]|] eqn:E; cbn [bind]; [|discriminate].
  intros F. injection F as <-. apply Pjoin; [exact Pnil|]. intros i I. apply in_app_or in I. destruct I as [I|[<-|[]]]; [|auto].
  eapply tabs_loop_closed; eauto. intros w [].
Qed.
Lemma zfill_closed : forall x width y, P x -> zfill_text o x width = Ok y -> P y.
Proof.
  intros x width y X. unfold zfill_text. match goal with |- context [bind ?r _] => destruct r as [sign|]; cbn [bind]; [|discriminate] end.
  cbv zeta. intros E. injection E as <-. apply Pjoin; [exact Pnil|]. intros i I.
  repeat (apply in_app_or in I; destruct I as [I|I]).
  - destruct sign; [destruct I as [<-|[]]; auto|destruct I].
  - destruct (0 <? _); [destruct I as [<-|[]]; auto|destruct I].
  - destruct I as [<-|[]]. destruct sign; auto.
Qed.
End Closed.

(** ** Taking text apart *)

Section Parts.
Context (P : str -> Prop).
Hypothesis Pslice : forall x a b, P x -> P (getsubstr x a b).

Lemma strip_closed : forall space x values l r y, P x -> str_strip space x values l r = Ok y -> P None -> P y.
Proof.
  intros space x values l r y X E N. destruct x as [d|]; [|injection E as <-; exact X]. cbn [str_strip] in E.
  assert (K : forall p, bind (strip_bounds (codepoints d) p l r)
               (fun '(a, b) => Ok (if a =? b then None else if (a =? 0) && (b =? slen (Some d)) then Some d else getsubstr (Some d) a b)) = Ok y -> P y).
  { intros p. destruct (strip_bounds (codepoints d) p l r) as [[a b]|]; cbn [bind]; [|discriminate]. intros F. injection F as <-.
    destruct (a =? b); [exact N|]. destruct ((a =? 0) && (b =? slen (Some d))); [exact X|exact (Pslice (Some d) a b X)]. }
  destruct values as [v|]; [destruct (slen v =? 0); [injection E as <-; exact X|]|]; eapply K; exact E.
Qed.
Lemma split_loop_closed : forall fuel space x sep max cur count out z ys, P x -> (forall y, In y out -> P y) ->
  ssplit_loop fuel space x sep max cur count out = Ok (z, ys) -> forall y, In y ys -> P y.
Proof.
  induction fuel as [|fuel IH]; intros space x sep max cur count out z ys X O E; cbn [ssplit_loop] in E; [discriminate|].
  assert (ADD : forall a b y, In y (out ++ [getsubstr x a b]) -> P y).
  { intros a b y I. apply in_app_or in I. destruct I as [I|[<-|[]]]; auto. }
  destruct (_ && _); [|injection E as _ <-; exact O].
  match goal with H : context [bind ?r _] |- _ => destruct r as [m|]; cbn [bind] in H; [|discriminate] end.
  repeat match goal with
         | H : (if ?c then _ else _) = Ok _ |- _ => destruct c
         | H : Ok _ = Ok _ |- _ => injection H as _ <-
         end; eauto.
Qed.
Lemma split_closed : forall space x sep max ys, P x -> str_split space x sep max = Ok ys -> forall y, In y ys -> P y.
Proof.
  intros space x sep max ys X E. assert (K : ssplit space x sep max = Ok ys).
  { unfold str_split, ssplit_call in E. destruct sep as [s|]; [destruct (slen s =? 0); [discriminate|]|]; exact E. }
  clear E. unfold ssplit in K. destruct (slen x =? 0).
  - injection K as <-. intros y I. destruct sep as [s|]; [destruct (negb _)|]; destruct I as [<-|[]] || destruct I; exact X.
  - destruct (ssplit_loop _ _ _ _ _ _ _ _) as [[cur out]|] eqn:L; cbn [bind] in K; [|discriminate].
    match goal with H : context [bind ?r _] |- _ => destruct r as [c|]; cbn [bind] in H; [|discriminate] end.
    injection K as <-. assert (O := split_loop_closed _ _ _ _ _ _ _ _ _ _ X (fun y (I : In y nil) => match I with end) L).
    destruct (_ || _); [|exact O]. intros y I. apply in_app_or in I. destruct I as [I|[<-|[]]]; auto.
Qed.
Lemma rsplit_loop_closed : forall fuel space x sep max cur count out z ys, P x -> (forall y, In y out -> P y) ->
  srsplit_loop fuel space x sep max cur count out = Ok (z, ys) -> forall y, In y ys -> P y.
Proof.
  induction fuel as [|fuel IH]; intros space x sep max cur count out z ys X O E; cbn [srsplit_loop] in E; [discriminate|].
  assert (ADD : forall a b y, In y (out ++ [getsubstr x a b]) -> P y).
  { intros a b y I. apply in_app_or in I. destruct I as [I|[<-|[]]]; auto. }
  destruct (_ && _); [|injection E as _ <-; exact O].
  match goal with H : context [bind ?r _] |- _ => destruct r as [m|]; cbn [bind] in H; [|discriminate] end.
  repeat match goal with
         | H : (if ?c then _ else _) = Ok _ |- _ => destruct c
         | H : Ok _ = Ok _ |- _ => injection H as _ <-
         end; eauto.
Qed.
Lemma rsplit_closed : forall space x sep max ys, P x -> str_rsplit space x sep max = Ok ys -> forall y, In y ys -> P y.
Proof.
  intros space x sep max ys X E. assert (K : srsplit space x sep max = Ok ys).
  { unfold str_rsplit, ssplit_call in E. destruct sep as [s|]; [destruct (slen s =? 0); [discriminate|]|]; exact E. }
  clear E. unfold srsplit in K. destruct (slen x =? 0).
  - injection K as <-. intros y I. destruct sep as [s|]; [destruct (negb _)|]; destruct I as [<-|[]] || destruct I; exact X.
  - destruct (srsplit_loop _ _ _ _ _ _ _ _) as [[cur out]|] eqn:L; cbn [bind] in K; [|discriminate].
    match goal with H : context [bind ?r _] |- _ => destruct r as [c|]; cbn [bind] in H; [|discriminate] end.
    injection K as <-. assert (O := rsplit_loop_closed _ _ _ _ _ _ _ _ _ _ X (fun y (I : In y nil) => match I with end) L).
    intros y I. apply in_rev in I. destruct (_ || _); [|auto]. apply in_app_or in I. destruct I as [I|[<-|[]]]; auto.
Qed.
Lemma lines_closed : forall x keepends ys, P x -> str_splitlines x keepends = Ok ys -> forall y, In y ys -> P y.
Proof.
  intros x keepends ys X E y I. unfold str_splitlines in E. cbv zeta in E.
  destruct (lines_loop _ _ _ _ _ _) as [[cur out]|]; cbn [bind] in E; [|discriminate]. injection E as <-.
  assert (K : In y (map (fun p => getsubstr x (fst p) (snd p)) out) -> P y).
  { intros J. apply in_map_iff in J. destruct J as (p & <- & _). auto. }
  destruct (negb _); [|auto]. apply in_app_or in I. destruct I as [I|[<-|[<-|[]]]]; auto.
Qed.
Lemma partition_closed : forall x sep a b c y, P x -> P sep -> P None -> str_partition x sep = Ok (a, b, c) -> In y [a; b; c] -> P y.
Proof.
  intros x sep a b c y X S N E I. unfold str_partition in E. destruct (slen sep =? 0); [discriminate|].
  destruct (str_find _ _ _ _) as [pos|]; cbn [bind] in E; [|discriminate]. destruct (pos =? -1); injection E as <- <- <-;
    destruct I as [<-|[<-|[<-|[]]]]; auto.
Qed.
Lemma rpartition_closed : forall x sep a b c y, P x -> P sep -> P None -> str_rpartition x sep = Ok (a, b, c) -> In y [a; b; c] -> P y.
Proof.
  intros x sep a b c y X S N E I. unfold str_rpartition in E. destruct (slen sep =? 0); [discriminate|].
  destruct (str_rfind _ _ _ _) as [pos|]; cbn [bind] in E; [|discriminate]. destruct (pos =? -1); injection E as <- <- <-;
    destruct I as [<-|[<-|[<-|[]]]]; auto.
Qed.
End Parts.

(** ** Where text comes from *)

Lemma kind_fits : forall cs, Forall (fun c => 0 <= c < 1114112) cs -> width_ok (kind_of cs) /\ Forall (in_cell (kind_of cs)) cs.
Proof.
  intros cs F. unfold kind_of. destruct (forallb (fun c => c <? 256) cs) eqn:A; [|destruct (forallb (fun c => c <? 65536) cs) eqn:B].
  - split; [left; reflexivity|]. rewrite forallb_forall in A. rewrite Forall_forall in *. intros c I. specialize (A c I). specialize (F c I).
    unfold in_cell. change (2 ^ (8 * 1)) with 256. lia.
  - split; [right; left; reflexivity|]. rewrite forallb_forall in B. rewrite Forall_forall in *. intros c I. specialize (B c I). specialize (F c I).
    unfold in_cell. change (2 ^ (8 * 2)) with 65536. lia.
  - split; [right; right; reflexivity|]. revert F. apply Forall_impl. intros c C. unfold in_cell. change (2 ^ (8 * 4)) with 4294967296. lia.
Qed.
Lemma holds_python : forall cs, Forall (fun c => 0 <= c < 1114112) cs -> holds (from_python cs).
Proof. intros [|c r] F; [exact holds_none|]. exact (kind_fits _ F). Qed.
Lemma chr_python : forall c s, str_chr c = Ok s -> s = from_python [c] /\ 0 <= c < 1114112.
Proof.
  intros c s. unfold str_chr. destruct ((c <? 0) || (1114111 <? c)) eqn:B; [discriminate|]. intros E. injection E as <-. split; [|lia].
  unfold single_from_codepoint, from_python, kind_of. cbn [forallb]. rewrite !andb_true_r. unfold wrap_u.
  destruct (c <=? 255) eqn:?; [|destruct (c <=? 65535) eqn:?].
  - replace (c <? 256) with true by lia. change (2 ^ (8 * 1)) with 256. now rewrite Z.mod_small by lia.
  - replace (c <? 256) with false by lia. replace (c <? 65536) with true by lia. change (2 ^ (8 * 2)) with 65536. now rewrite Z.mod_small by lia.
  - replace (c <? 256) with false by lia. replace (c <? 65536) with false by lia. change (2 ^ (8 * 4)) with 4294967296. now rewrite Z.mod_small by lia.
Qed.

Lemma width_required_ok : forall n bs k w w', width_ok w -> width_required n bs k w = Ok w' -> width_ok w'.
Proof.
  induction n as [|n IH]; intros bs k w w' W E; cbn [width_required] in E; [injection E as <-; exact W|].
  destruct (cread bs k) as [b|]; cbn [bind] in E; [|discriminate]. destruct (sequence_length b) as [m|]; [|discriminate].
  eapply IH; [|exact E]. unfold width_ok, width_of_sequence in *. destruct (m =? 1), (m =? 4); lia.
Qed.
Lemma decode_to_ok : forall w n bs k cs, width_ok w -> decode_to w n bs k = Ok cs -> Forall (in_cell w) cs.
Proof.
  intros w n bs k cs W. revert k cs. induction n as [|n IH]; intros k cs E; cbn [decode_to] in E; [injection E as <-; constructor|].
  destruct (cread bs k) as [b|]; cbn [bind] in E; [|discriminate]. destruct (sequence_length b) as [m|]; [|discriminate].
  destruct (decode_sequence bs k m b) as [c|]; cbn [bind] in E; [|discriminate].
  destruct (decode_to w n bs (k + m)) as [r|] eqn:D; cbn [bind] in E; [|discriminate]. injection E as <-.
  constructor; [|now apply IH with (k + m)]. unfold in_cell, wrap_u. apply Z.mod_pos_bound. apply Z.pow_pos_nonneg; unfold width_ok in W; lia.
Qed.
Lemma holds_decode : forall bs e s, Forall is_byte bs -> bytes_decode (Some bs) e = Some (Ok s) -> holds s.
Proof.
  intros bs e s F. unfold bytes_decode. destruct (handler_of e); [|discriminate]. intros E. injection E as E.
  match goal with H : context [bind ?r _] |- _ => destruct r as [n|]; cbn [bind] in H; [|discriminate] end. unfold create_from_utf8 in E.
  destruct (n =? 0); [injection E as <-; exact holds_none|].
  destruct (width_required _ _ _ _) as [w|] eqn:W; cbn [bind] in E; [|discriminate].
  assert (WO := width_required_ok _ _ _ _ _ (or_introl eq_refl) W). destruct (w =? 1).
  - destruct (n <=? zlen bs); [|discriminate]. injection E as <-. split; [left; reflexivity|]. cbn [sdata swidth bytes_per_codepoint codepoints].
    rewrite Forall_forall in *. intros c I. apply F. rewrite <- (firstn_skipn (Z.to_nat n) bs). apply in_or_app. now left.
  - destruct (decode_to _ _ _ _) as [cs|] eqn:D; cbn [bind] in E; [|discriminate]. injection E as <-. split; [exact WO|].
    cbn [sdata swidth bytes_per_codepoint codepoints]. now apply decode_to_ok with (Z.to_nat n) bs 0.
Qed.

Theorem made_holds : forall space joining s, made space joining s -> holds s.
Proof.
  assert (L : forall d, Forall (in_cell 1) d -> holds (str_lit d)) by exact holds_lit.
  assert (B : holds (str_lit [32])) by (apply L; constructor; [split; [discriminate|reflexivity]|constructor]).
  assert (Z0 : holds (str_lit [48])) by (apply L; constructor; [split; [discriminate|reflexivity]|constructor]).
  induction 1.
  - now apply holds_python.
  - destruct (chr_python c s H) as [-> R]. apply holds_python. repeat constructor; lia.
  - eapply holds_decode; eauto.
  - now apply holds_concat.
  - now apply holds_mult.
  - eapply holds_item; eauto.
  - now apply holds_slice.
  - now apply holds_join.
  - eapply (replace_closed str_ops holds holds_slice holds_join holds_none); [exact IHmade1|exact IHmade3|eassumption].
  - eapply strip_closed; eauto using holds_slice, holds_none.
  - eapply split_closed; eauto using holds_slice.
  - eapply rsplit_closed; eauto using holds_slice.
  - eapply lines_closed; eauto using holds_slice.
  - eapply partition_closed; [exact holds_slice|exact IHmade1|exact IHmade2|exact holds_none|eassumption|eassumption].
  - eapply rpartition_closed; [exact holds_slice|exact IHmade1|exact IHmade2|exact holds_none|eassumption|eassumption].
  - eapply (justify_closed str_ops holds B); [|exact IHmade| |eassumption]; [|assumption]. intros; apply (center_closed str_ops holds holds_concat holds_mult); auto.
  - eapply (justify_closed str_ops holds B); [|exact IHmade| |eassumption]; [|assumption]. intros; apply (ljust_closed str_ops holds holds_concat holds_mult); auto.
  - eapply (justify_closed str_ops holds B); [|exact IHmade| |eassumption]; [|assumption]. intros; apply (rjust_closed str_ops holds holds_concat holds_mult); auto.
  - eapply (tabs_closed str_ops holds holds_slice holds_join holds_mult holds_none B); eauto.
  - eapply (zfill_closed str_ops holds holds_slice holds_join holds_mult holds_none Z0); eauto.
Qed.

(** ** Empty text *)

Definition empty_is_null (s : str) : Prop := sdata s = nil -> s = None.
Lemma null_none : empty_is_null None.
Proof. intros _. reflexivity. Qed.
Lemma null_slice : forall x a b, empty_is_null x -> empty_is_null (getsubstr x a b).
Proof.
  intros [l|] a b _; [|exact null_none]. unfold getsubstr. cbv zeta. set (n := zlen (codepoints l)).
  set (s := if a <? 0 then (if a + n <? 0 then 0 else a + n) else a). assert (S0 : 0 <= s).
  { unfold s. destruct (a <? 0) eqn:?; [destruct (a + n <? 0) eqn:?|]; lia. }
  clearbody s. set (e := if b <? 0 then _ else b). clearbody e. clear a b.
  destruct ((e <? s) || (n <? s)) eqn:O.
  - replace (n <? 0) with false by (unfold n, zlen; lia). exact null_none.
  - match goal with |- empty_is_null (if ?c then _ else _) => destruct c eqn:C end; [exact null_none|]. intros E. exfalso.
    cbn [sdata codepoints] in E. apply (f_equal (@length Z)) in E. unfold sub_list in E.
    rewrite firstn_length, skipn_length in E. cbn [length] in E. unfold n, zlen in *. clear - E C O S0.
    destruct (Z.of_nat (length (codepoints l)) <? e) eqn:X; lia.
Qed.
Lemma null_concat : forall x y, empty_is_null x -> empty_is_null y -> empty_is_null (str_concat x y).
Proof.
  intros [a|] [b|] X Y; cbn [str_concat]; try assumption. intros E. cbn [sdata codepoints] in E. apply app_eq_nil in E. destruct E as [E _].
  discriminate (X E).
Qed.
Lemma null_mult : forall x n, empty_is_null x -> empty_is_null (str_mult x n).
Proof.
  intros [l|] n X; cbn [str_mult]; [|exact null_none]. destruct (n <=? 0) eqn:N; [exact null_none|]. intros E. cbn [sdata codepoints] in E.
  destruct (Z.to_nat n) as [|k] eqn:K; [lia|]. cbn [repeat_list] in E. apply app_eq_nil in E. destruct E as [E _]. discriminate (X E).
Qed.
Lemma null_item : forall x i y, empty_is_null x -> str_getitem x i = Ok y -> empty_is_null y.
Proof.
  intros x i y H. unfold str_getitem. destruct (_ || _); [discriminate|]. destruct x as [l|]; [|intros E; injection E as <-; exact null_none].
  destruct (slen (Some l) =? 1); [intros E; injection E as <-; exact H|]. cbv zeta.
  match goal with |- context [cread ?l ?i] => destruct (cread l i) as [c|] end; cbn [bind]; [|discriminate]. intros E. injection E as <-. discriminate.
Qed.
Lemma null_lit : forall d, empty_is_null (str_lit d).
Proof. intros [|c r]; [exact null_none|discriminate]. Qed.
Lemma null_python : forall cs, empty_is_null (from_python cs).
Proof. intros [|c r]; [exact null_none|discriminate]. Qed.
Lemma decode_to_length : forall w n bs k cs, decode_to w n bs k = Ok cs -> length cs = n.
Proof.
  intros w n bs. induction n as [|n IH]; intros k cs E; cbn [decode_to] in E; [injection E as <-; reflexivity|].
  destruct (cread bs k) as [b|]; cbn [bind] in E; [|discriminate]. destruct (sequence_length b) as [m|]; [|discriminate].
  destruct (decode_sequence bs k m b) as [c|]; cbn [bind] in E; [|discriminate].
  destruct (decode_to w n bs (k + m)) as [r|] eqn:D; cbn [bind] in E; [|discriminate]. injection E as <-. cbn [length]. f_equal. eauto.
Qed.
Lemma count_points_grows : forall fuel bs k count n, count_points fuel bs k count = Ok n -> count <= n.
Proof.
  induction fuel as [|fuel IH]; intros bs k count n E; cbn [count_points] in E; [discriminate|].
  destruct (k <? zlen bs); [|injection E as <-; lia]. destruct (cread bs k); cbn [bind] in E; [|discriminate].
  destruct (sequence_length _); [|discriminate]. apply IH in E. lia.
Qed.
Lemma null_decode : forall bs e s, bytes_decode (Some bs) e = Some (Ok s) -> empty_is_null s.
Proof.
  intros bs e s. unfold bytes_decode. destruct (handler_of e); [|discriminate]. intros E. injection E as E.
  match goal with H : context [bind ?r _] |- _ => destruct r as [n|] eqn:N; cbn [bind] in H; [|discriminate] end. unfold create_from_utf8 in E.
  assert (N0 : 0 <= n).
  { destruct (0 <? zlen bs); [|injection N as <-; lia]. destruct (cread bs 0); cbn [bind] in N; [|discriminate].
    destruct (sequence_length _); [|discriminate]. apply count_points_grows in N. lia. }
  destruct (n =? 0) eqn:NZ; [injection E as <-; exact null_none|].
  destruct (width_required _ _ _ _) as [w|]; cbn [bind] in E; [|discriminate]. destruct (w =? 1).
  - destruct (n <=? zlen bs) eqn:L; [|discriminate]. injection E as <-. intros E. exfalso. cbn [sdata codepoints] in E.
    apply (f_equal (@length Z)) in E. rewrite firstn_length in E. cbn [length] in E. unfold zlen in L. lia.
  - destruct (decode_to _ _ _ _) as [cs|] eqn:D; cbn [bind] in E; [|discriminate]. injection E as <-. intros E. exfalso. cbn [sdata codepoints] in E.
    apply decode_to_length in D. rewrite E in D. cbn [length] in D. lia.
Qed.
Theorem made_null : forall space s, made space false s -> empty_is_null s.
Proof.
  assert (B := null_lit [32]). induction 1; try (match goal with H : _ \/ _ <> nil |- _ => destruct H as [H|H]; [discriminate|intros E; now elim H] end).
  - apply null_python.
  - destruct (chr_python c s H) as [-> _]. apply null_python.
  - eapply null_decode; eauto.
  - now apply null_concat.
  - now apply null_mult.
  - eapply null_item; eauto.
  - now apply null_slice.
  - eapply strip_closed; eauto using null_slice, null_none.
  - eapply split_closed; eauto using null_slice.
  - eapply rsplit_closed; eauto using null_slice.
  - eapply lines_closed; eauto using null_slice.
  - eapply partition_closed; [exact null_slice|exact IHmade1|exact IHmade2|exact null_none|eassumption|eassumption].
  - eapply rpartition_closed; [exact null_slice|exact IHmade1|exact IHmade2|exact null_none|eassumption|eassumption].
  - eapply (justify_closed str_ops empty_is_null B); [|exact IHmade| |eassumption]; [|assumption]. intros; apply (center_closed str_ops empty_is_null null_concat null_mult); auto.
  - eapply (justify_closed str_ops empty_is_null B); [|exact IHmade| |eassumption]; [|assumption]. intros; apply (ljust_closed str_ops empty_is_null null_concat null_mult); auto.
  - eapply (justify_closed str_ops empty_is_null B); [|exact IHmade| |eassumption]; [|assumption]. intros; apply (rjust_closed str_ops empty_is_null null_concat null_mult); auto.
Qed.

(** ** Comparison *)

Lemma array_compare_equal : forall l r, length l = length r ->
  (array_compare (Nat.min (length l) (length r)) l r = 0 <-> l = r).
Proof.
  induction l as [|a l IH]; intros [|b r] L; try discriminate; [cbn; tauto|]. injection L as L. cbn [length Nat.min array_compare].
  destruct (a <? b) eqn:A; [split; [discriminate|intros E; injection E as -> ->; lia]|].
  destruct (b <? a) eqn:B; [split; [discriminate|intros E; injection E as -> ->; lia]|].
  assert (a = b) by lia. subst b. rewrite IH by exact L. split; [intros ->; reflexivity|intros E; now injection E].
Qed.
Theorem eq_right : forall x y, empty_is_null x -> empty_is_null y -> str_eq x y = true <-> sdata x = sdata y.
Proof.
  intros [l|] [r|] EX EY; cbn [str_eq sdata].
  - destruct (zlen (codepoints l) =? zlen (codepoints r)) eqn:L; cbn [negb].
    + rewrite Z.eqb_eq. apply array_compare_equal. unfold zlen in L. lia.
    + split; [discriminate|]. intros E. rewrite E in L. lia.
  - split; [discriminate|]. intros E. now specialize (EX E).
  - split; [discriminate|]. intros E. symmetry in E. now specialize (EY E).
  - tauto.
Qed.

Lemma cmp_data_right : forall l r,
  (cmp_data l r = 0 /\ l = r) \/ (cmp_data l r = -1 /\ precedes l r) \/ (cmp_data l r = 1 /\ precedes r l).
Proof.
  assert (K : forall l r, let res := array_compare (Nat.min (length l) (length r)) l r in
    (res = -1 /\ precedes l r) \/ (res = 1 /\ precedes r l) \/
    (res = 0 /\ ((zlen l < zlen r /\ precedes l r) \/ (zlen r < zlen l /\ precedes r l) \/ l = r))).
  { induction l as [|a l IH]; intros [|b r]; cbn [length Nat.min array_compare].
    - right. right. auto.
    - right. right. split; [reflexivity|]. left. split; [unfold zlen; cbn [length]; lia|constructor].
    - right. right. split; [reflexivity|]. right. left. split; [unfold zlen; cbn [length]; lia|constructor].
    - destruct (a <? b) eqn:A; [left; split; [reflexivity|constructor; lia]|].
      destruct (b <? a) eqn:B; [right; left; split; [reflexivity|constructor; lia]|]. assert (a = b) by lia. subst b.
      rewrite !zlen_cons. destruct (IH r) as [[E P]|[[E P]|[E [[L P]|[[L P]| -> ]]]]]; cbv zeta in E; rewrite E.
      + left. split; [reflexivity|now constructor].
      + right. left. split; [reflexivity|now constructor].
      + right. right. split; [reflexivity|]. left. split; [lia|now constructor].
      + right. right. split; [reflexivity|]. right. left. split; [lia|now constructor].
      + right. right. auto. }
  intros l r. unfold cmp_data. destruct (K l r) as [[E P]|[[E P]|[E C]]]; cbv zeta in E |- *; rewrite E; cbn [Z.eqb Pos.eqb negb]; auto.
  destruct C as [[L P]|[[L P]| -> ]].
  - replace (zlen l <? zlen r) with true by lia. auto.
  - replace (zlen l <? zlen r) with false by lia. replace (zlen r <? zlen l) with true by lia. auto.
  - rewrite Z.ltb_irrefl. auto.
Qed.
Lemma precedes_irrefl : forall l, ~ precedes l l.
Proof. induction l as [|a l IH]; intros P; inversion P; subst; [lia|auto]. Qed.
Lemma precedes_asym : forall l r, precedes l r -> ~ precedes r l.
Proof. intros l r P. induction P; intros Q; inversion Q; subst; try lia; auto. Qed.
Theorem cmp_right : forall x y, empty_is_null x -> empty_is_null y ->
  (str_cmp x y < 0 <-> precedes (sdata x) (sdata y)) /\ (str_cmp x y > 0 <-> precedes (sdata y) (sdata x)) /\
  (str_cmp x y = 0 <-> sdata x = sdata y).
Proof.
  intros [l|] [r|] EX EY; cbn [str_cmp sdata].
  - destruct (cmp_data_right (codepoints l) (codepoints r)) as [[-> E]|[[-> P]|[-> P]]].
    + rewrite E. assert (N := precedes_irrefl (codepoints r)). repeat split; intros; try lia; tauto.
    + assert (N := precedes_asym _ _ P). assert (M : codepoints l <> codepoints r) by (intros E; rewrite E in P; now apply precedes_irrefl in P).
      repeat split; intros; try lia; tauto.
    + assert (N := precedes_asym _ _ P). assert (M : codepoints l <> codepoints r) by (intros E; rewrite E in P; now apply precedes_irrefl in P).
      repeat split; intros; try lia; tauto.
  - assert (N : codepoints l <> nil) by (intros E; discriminate (EX E)). destruct (codepoints l) as [|c d]; [congruence|].
    repeat split; intros H; try lia; try discriminate; try constructor; inversion H.
  - assert (N : codepoints r <> nil) by (intros E; discriminate (EY E)). destruct (codepoints r) as [|c d]; [congruence|].
    repeat split; intros H; try lia; try discriminate; try constructor; inversion H.
  - repeat split; intros H; try lia; inversion H.
Qed.

Lemma precedes_trans : forall l r q, precedes l r -> precedes r q -> precedes l q.
Proof.
  intros l r q P. revert q. induction P; intros q Q; inversion Q; subst; try (now apply shorter); try (apply smaller; lia); apply further; auto.
Qed.
Lemma precedes_total : forall l r, precedes l r \/ l = r \/ precedes r l.
Proof. intros l r. destruct (cmp_data_right l r) as [[_ E]|[[_ P]|[_ P]]]; auto. Qed.
Theorem not_both_empty : forall x y, sdata x <> nil \/ sdata y <> nil ->
  (str_eq x y = true <-> sdata x = sdata y) /\ (str_cmp x y < 0 <-> precedes (sdata x) (sdata y)) /\
  (str_cmp x y > 0 <-> precedes (sdata y) (sdata x)) /\ (str_cmp x y = 0 <-> sdata x = sdata y).
Proof.
  intros [l|] [r|] N; cbn [sdata] in N.
  - (* one that is not null stands for an empty one *)
    assert (C := cmp_data_right (codepoints l) (codepoints r)). cbn [str_eq str_cmp sdata]. split.
    + destruct (zlen (codepoints l) =? zlen (codepoints r)) eqn:L; cbn [negb].
      * rewrite Z.eqb_eq. apply array_compare_equal. unfold zlen in L. lia.
      * split; [discriminate|]. intros E. rewrite E in L. lia.
    + destruct C as [[-> E]|[[-> P]|[-> P]]].
      * rewrite E. assert (M := precedes_irrefl (codepoints r)). repeat split; intros; try lia; tauto.
      * assert (K := precedes_asym _ _ P). assert (M : codepoints l <> codepoints r) by (intros E; rewrite E in P; now apply precedes_irrefl in P).
        repeat split; intros; try lia; tauto.
      * assert (K := precedes_asym _ _ P). assert (M : codepoints l <> codepoints r) by (intros E; rewrite E in P; now apply precedes_irrefl in P).
        repeat split; intros; try lia; tauto.
  - assert (X : empty_is_null (Some l)) by (intros E; cbn [sdata] in E; destruct N; congruence).
    split; [exact (eq_right (Some l) None X null_none)|exact (cmp_right (Some l) None X null_none)].
  - assert (X : empty_is_null (Some r)) by (intros E; cbn [sdata] in E; destruct N; congruence).
    split; [exact (eq_right None (Some r) null_none X)|exact (cmp_right None (Some r) null_none X)].
  - destruct N; congruence.
Qed.

(** ** Text that is put together *)

Lemma kind_app : forall a b, kind_of (a ++ b) = Z.max (kind_of a) (kind_of b).
Proof.
  intros a b. unfold kind_of. rewrite !forallb_app.
  assert (M : forall l, forallb (fun c => c <? 256) l = true -> forallb (fun c => c <? 65536) l = true).
  { intros l. rewrite !forallb_forall. intros H x I. specialize (H x I). lia. }
  destruct (forallb (fun c => c <? 256) a) eqn:A; [rewrite (M a A)|];
    (destruct (forallb (fun c => c <? 256) b) eqn:B; [rewrite (M b B)|]); cbn [andb]; rewrite ?andb_true_r;
    try (destruct (forallb (fun c => c <? 65536) a)); try (destruct (forallb (fun c => c <? 65536) b)); reflexivity.
Qed.
Lemma kind_one : forall a, 1 <= kind_of a.
Proof. intros a. unfold kind_of. destruct (forallb _ a); [|destruct (forallb _ a)]; lia. Qed.
(** Stored as Python text is. *)
Definition as_python (s : str) : Prop := s = from_python (sdata s).
Lemma python_as : forall cs, as_python (from_python cs).
Proof. intros [|c r]; reflexivity. Qed.
Lemma as_python_some : forall l, as_python (Some l) <-> codepoints l <> nil /\ bytes_per_codepoint l = kind_of (codepoints l).
Proof.
  intros [w cs]. unfold as_python. cbn [sdata codepoints bytes_per_codepoint]. destruct cs as [|c r]; cbn [from_python].
  - split; [discriminate|]. intros [N _]. congruence.
  - split; [intros E; injection E as ->; split; [discriminate|reflexivity]|]. intros [_ ->]. reflexivity.
Qed.
Lemma width_as : forall s, as_python s -> swidth s = kind_of (sdata s).
Proof. intros [l|] A; [now apply as_python_some in A|reflexivity]. Qed.
Lemma concat_as : forall x y, as_python x -> as_python y -> as_python (str_concat x y).
Proof.
  intros [a|] [b|] X Y; cbn [str_concat]; auto. rewrite as_python_some in *. cbn [codepoints bytes_per_codepoint].
  destruct X as [NX ->], Y as [NY ->]. split; [destruct (codepoints a); [congruence|discriminate]|]. now rewrite kind_app.
Qed.
Lemma kind_repeat : forall l n, kind_of (repeat_list (S n) l) = kind_of l.
Proof.
  intros l n. induction n as [|n IH]; cbn [repeat_list]; [now rewrite app_nil_r|]. rewrite kind_app. cbn [repeat_list] in IH. rewrite IH. lia.
Qed.
Lemma mult_as : forall x n, as_python x -> as_python (str_mult x n).
Proof.
  intros [l|] n X; cbn [str_mult]; [|exact X]. destruct (n <=? 0) eqn:E; [reflexivity|]. rewrite as_python_some in *.
  cbn [codepoints bytes_per_codepoint]. destruct X as [N ->]. destruct (Z.to_nat n) as [|k] eqn:K; [lia|]. rewrite kind_repeat. split; [|reflexivity].
  cbn [repeat_list]. destruct (codepoints l); [congruence|discriminate].
Qed.
Lemma join_kind : forall sep items a, (2 <= length items)%nat -> 0 <= a <= Z.max (kind_of sep) 1 ->
  kind_of (join_data sep items) = fold_left Z.max (map kind_of items) (Z.max a (kind_of sep)).
Proof.
  intros sep items. assert (FM : forall l a b, fold_left Z.max l (Z.max a b) = Z.max a (fold_left Z.max l b)).
  { induction l as [|x r IH]; intros a b; cbn [fold_left]; [reflexivity|]. rewrite <- IH. f_equal. lia. }
  assert (K : forall items, (2 <= length items)%nat ->
    kind_of (join_data sep items) = fold_left Z.max (map kind_of items) (kind_of sep)).
  { induction items0 as [|x r IH]; intros L; [cbn in L; lia|]. destruct r as [|y r]; [cbn in L; lia|].
    change (join_data sep (x :: y :: r)) with (x ++ sep ++ join_data sep (y :: r)). rewrite !kind_app.
    destruct r as [|z r].
    - cbn. lia.
    - rewrite IH by (cbn; lia). cbn [map fold_left]. rewrite !FM. lia. }
  intros a L A. rewrite K by exact L. rewrite FM. destruct items as [|x [|y r]]; [cbn in L; lia|cbn in L; lia|].
  cbn [map fold_left]. rewrite !FM. assert (P := kind_one sep). assert (Q := kind_one x). lia.
Qed.
Lemma join_as : forall sep items, as_python sep -> (forall i, In i items -> as_python i) -> (2 <= length items)%nat ->
  sdata (str_join sep items) <> nil -> as_python (str_join sep items).
Proof.
  intros sep items S I L N. destruct items as [|x r]; [cbn in L; lia|]. unfold str_join in *. cbn [sdata codepoints] in N.
  rewrite as_python_some. cbn [codepoints bytes_per_codepoint]. split; [exact N|]. set (items := x :: r) in *.
  rewrite upgrade_data. rewrite (map_ext _ sdata) by (intros; apply upgrade_data).
  set (base := match sep with Some l => Z.max 0 (bytes_per_codepoint l) | None => 0 end).
  assert (W : map swidth items = map kind_of (map sdata items)).
  { rewrite map_map. apply map_ext_in. intros i J. apply width_as. now apply I. }
  rewrite W. rewrite (join_kind (sdata sep) (map sdata items) base).
  - assert (FM : forall l a b, fold_left Z.max l (Z.max a b) = Z.max a (fold_left Z.max l b)).
    { induction l as [|z q IH]; intros a b; cbn [fold_left]; [reflexivity|]. rewrite <- IH. f_equal. lia. }
    assert (B : base = kind_of (sdata sep) \/ (base = 0 /\ kind_of (sdata sep) = 1)).
    { destruct sep as [l|]; [left|right; auto]. apply as_python_some in S. destruct S as [_ S]. unfold base. cbn [sdata]. rewrite S.
      assert (P := kind_one (codepoints l)). lia. }
    destruct B as [-> | [-> ->]]; [now rewrite Z.max_id|]. unfold items. cbn [map fold_left]. rewrite !FM.
    assert (P := kind_one (sdata x)). destruct (fold_max (map kind_of (map sdata r)) (kind_of (sdata x))) as [M _]. lia.
  - now rewrite map_length.
  - assert (P := kind_one (sdata sep)). unfold base. destruct sep as [l|]; [|lia]. apply as_python_some in S. destruct S as [_ S]. cbn [sdata]. lia.
Qed.
Theorem put_together_as : forall s, put_together s -> as_python s.
Proof.
  induction 1.
  - apply python_as.
  - destruct (chr_python c s H) as [-> _]. apply python_as.
  - now apply concat_as.
  - now apply mult_as.
  - now apply join_as.
Qed.
