(** Deserializing arbitrary bytes terminates (C43). *)
From Verif Require Import Base Wire_Model Wire_Proofs Serial_Model.
From Coq Require Import ZifyBool ZifyNat.
Open Scope Z_scope.
Open Scope result_scope.

(** A computation that does not run out of fuel and whose result satisfies [P]. *)
Definition fine {A} (P : A -> Prop) (r : result A) : Prop :=
  match r with Ok a => P a | Err e => e <> OutOfFuel end.

Lemma fine_bind {A B} (Q : A -> Prop) (P : B -> Prop) r k :
  fine Q r -> (forall a, Q a -> fine P (k a)) -> fine P (bind r k).
Proof. destruct r; cbn; auto. Qed.

Lemma fine_weaken {A} (Q P : A -> Prop) r : fine Q r -> (forall a, Q a -> P a) -> fine P r.
Proof. destruct r; cbn; auto. Qed.

Lemma fine_uvarint bs : fine (fun p => (length (snd p) < length bs)%nat) (read_uvarint bs).
Proof.
  pose proof (read_uvarint_not_fuel bs). destruct (read_uvarint bs) as [[v r]|e] eqn:E; cbn; [|congruence].
  now apply read_uvarint_shorter in E.
Qed.

Lemma fine_svarint bs : fine (fun p => (length (snd p) < length bs)%nat) (read_svarint bs).
Proof. eapply fine_bind; [apply fine_uvarint|]. intros [v r] H. exact H. Qed.

Lemma fine_tag bs : fine (fun p => (length (snd p) < length bs)%nat) (read_tag bs).
Proof.
  pose proof (read_tag_not_fuel bs). destruct (read_tag bs) as [[[f w] r]|e] eqn:E; cbn; [|congruence].
  now apply read_tag_shorter in E.
Qed.

Lemma fine_bytes n bs : fine (fun p => (length (snd p) <= length bs)%nat) (read_bytes n bs).
Proof.
  pose proof (read_bytes_not_fuel n bs). destruct (read_bytes n bs) as [[v r]|e] eqn:E; cbn; [|congruence].
  now apply read_bytes_shorter in E.
Qed.

Lemma fine_object bs : fine (fun p => (length (snd p) < length bs)%nat) (read_uvarint_object bs).
Proof.
  eapply fine_bind; [apply fine_tag|]. intros [[f w] r] H. cbn in H. destruct (w =? VARINT); [|cbn; discriminate].
  eapply fine_weaken; [apply fine_uvarint|]. cbn. intros; lia.
Qed.

Lemma fine_discard w bs : fine (fun r => (length r <= length bs)%nat) (finishReadingMessageAndDiscard w bs).
Proof.
  pose proof (discard_no_fuel_error w bs) as H. destruct (finishReadingMessageAndDiscard w bs) as [r|e] eqn:E; cbn; [|congruence].
  unfold finishReadingMessageAndDiscard in E. now apply discard_shorter_aux in E.
Qed.

Lemma fine_finish w bs : fine (fun r => (length r <= length bs)%nat) (finish_compound w bs).
Proof.
  unfold finish_compound. destruct ((w =? EMPTY) || (w =? SINGLE))%bool; [cbn; lia|].
  apply (fine_bind (fun p => (length (snd p) <= length bs)%nat)).
  - unfold readMessageAndDiscard. eapply fine_bind; [apply fine_tag|]. intros [[f w'] r] H. cbn in H.
    eapply fine_bind; [apply fine_discard|]. cbn. intros r' H'. lia.
  - intros [w' r] H. cbn in H. destruct (w' =? END_COMPOUND); cbn; [exact H|discriminate].
Qed.

Lemma fine_utf8_points bs : forall skip, fine (fun _ => True) (utf8_points skip bs).
Proof.
  induction bs as [|b bs IH]; intros skip; [exact I|]. cbn [utf8_points]. destruct skip; [|apply IH].
  apply (fine_bind (fun _ => True)); [|intros; exact I].
  repeat match goal with |- fine _ (if ?c then _ else _) => destruct c end; try apply IH. cbn; discriminate.
Qed.

Lemma fine_utf8_decode w fuel : forall bs, (length bs <= fuel)%nat -> fine (fun _ => True) (utf8_decode fuel w bs).
Proof.
  induction fuel as [|fuel IH]; intros bs H; destruct bs as [|b bs]; cbn [length] in H; try exact I; [lia|].
  cbn [utf8_decode].
  repeat match goal with
  | |- fine _ (if ?c then _ else _) => destruct c
  | |- fine _ (match ?l with [] => _ | _ :: _ => _ end) => destruct l; cbn [length] in H
  | |- fine _ (Err _) => cbn; discriminate
  | |- fine _ (bind (utf8_decode _ _ _) _) => apply (fine_bind (fun _ => True)); [apply IH; lia|intros; exact I]
  end.
Qed.

Lemma fine_decode_string data : fine (fun _ => True) (decode_string data).
Proof. eapply fine_bind; [apply fine_utf8_points|]. intros. now apply fine_utf8_decode. Qed.

Lemma fine_lookup id s : fine (fun _ => True) (lookup_cached id s).
Proof. unfold lookup_cached. destruct (_ <? 0); cbn; [discriminate|exact I]. Qed.

Lemma fine_add id p s : fine (fun _ => True) (add_cached id p s).
Proof.
  unfold add_cached. cbv zeta. destruct (_ <? 0); [cbn; discriminate|]. destruct (_ <? _); [cbn; discriminate|].
  destruct (nth_error _ _) as [[|]|]; cbn; [discriminate|exact I|discriminate].
Qed.

Lemma fine_default_fields one ts : (forall t s, fine (fun _ => True) (one t s)) ->
  forall s, fine (fun _ => True) (default_fields one ts s).
Proof.
  intros H. induction ts as [|t ts IH]; intros s; [exact I|]. cbn [default_fields].
  eapply fine_bind; [apply H|]. intros [v s'] _. eapply fine_bind; [apply IH|]. intros [vs s''] _. exact I.
Qed.

Lemma fine_default c n : forall t s, fine (fun _ => True) (default_value c n t s).
Proof.
  induction n as [|n IH]; intros t s; [cbn; discriminate|]. cbn [default_value].
  destruct (resolve c t); try exact I; try (cbn; discriminate).
  - destruct (forallb _ _); [|cbn; discriminate]. eapply fine_bind; [now apply fine_default_fields|]. intros [vs s'] _. exact I.
  - destruct (first_default _ _ _ _) as [[i t']|]; [|cbn; discriminate]. eapply fine_bind; [apply IH|]. intros [v s'] _. exact I.
  - destruct (first_default _ _ _ _) as [[i t']|]; [|cbn; discriminate]. eapply fine_bind; [apply IH|]. intros [v s'] _. exact I.
Qed.

Lemma fine_fill make : (forall t s, fine (fun _ => True) (make t s)) ->
  forall ts vs s, fine (fun _ => True) (fill_missing make ts vs s).
Proof.
  intros H. induction ts as [|t ts IH]; intros [|o vs] s; try exact I. cbn [fill_missing].
  apply (fine_bind (fun _ => True)); [destruct o; [exact I|apply H]|].
  intros [v s'] _. eapply fine_bind; [apply IH|]. intros [rest s''] _. exact I.
Qed.

Lemma fine_of_raw : forall t bs, fine (fun _ => True) (of_raw t bs).
Proof.
  fix IH 1. intros t bs. destruct t as [ |sg sz|sz| | | | |e|e|ts|ts|ts|k v|k v|k|n]; cbn [of_raw]; try exact I; try (cbn; discriminate).
  - destruct bs as [|b [|b' bs]]; cbn; try discriminate; exact I.
  - apply (fine_bind (fun _ => True)); [|intros; exact I].
    revert bs. induction ts as [|t ts IHts]; intros bs; [exact I|].
    eapply fine_bind; [apply IH|]. intros v _. eapply fine_bind; [apply IHts|]. intros; exact I.
  - destruct bs as [|b bs]; [cbn; discriminate|].
    apply (fine_bind (fun _ => True)); [|intros; exact I].
    generalize (Z.to_nat b). induction ts as [|t ts IHts]; intros i; [cbn; discriminate|].
    destruct i; [apply IH|apply IHts].
  - destruct bs as [|b [|b' bs]]; try (cbn; discriminate). destruct (nth_error _ _); cbn; [exact I|discriminate].
Qed.

Lemma fine_of_raws t n : forall bs, fine (fun _ => True) (of_raws t n bs).
Proof.
  induction n as [|n IH]; intros bs; [exact I|]. cbn [of_raws].
  eapply fine_bind; [apply fine_of_raw|]. intros v _. eapply fine_bind; [apply IH|]. intros; exact I.
Qed.

Lemma fine_block size n bs : fine (fun p => (length (snd p) <= length bs)%nat) (deserialize_block size n bs).
Proof. eapply fine_bind; [apply fine_bytes|]. intros [d r] H. exact H. Qed.

Lemma fine_int_list fuel : forall count bs, (length bs < fuel)%nat ->
  fine (fun p => (length (snd p) <= length bs)%nat) (deserialize_int_list fuel count bs).
Proof.
  induction fuel as [|fuel IH]; intros count bs H; [lia|]. cbn [deserialize_int_list].
  destruct (count =? 0); [cbn; lia|].
  eapply fine_bind; [apply fine_tag|]. intros [[k w] r] Hr. cbn in Hr.
  eapply fine_bind; [apply fine_uvarint|]. intros [n r2] Hr2. cbn in Hr2.
  apply (fine_bind (fun p => (length (snd p) <= length r2)%nat)).
  { repeat match goal with |- fine _ (if ?c then _ else _) => destruct c end; try apply fine_block. cbn; discriminate. }
  intros [zs r3] Hr3. cbn in Hr3. destruct (count <? _); [cbn; discriminate|].
  eapply fine_bind; [apply IH; lia|]. intros [rest r4] Hr4. cbn in *. lia.
Qed.

(** A reader of one value that is given at most [n] bytes. *)
Definition reader {S} (n : nat) (one : Z -> bytes -> S -> result (val * bytes * S)) : Prop :=
  forall w bs s, (length bs < n)%nat -> fine (fun p => (length (snd (fst p)) <= length bs)%nat) (one w bs s).

Lemma fine_elements {S} n (one : Z -> bytes -> S -> result (val * bytes * S)) : reader n one ->
  forall fuel ct bs s, (length bs < fuel)%nat -> (length bs <= n)%nat ->
  fine (fun p => (length (snd (fst p)) <= length bs)%nat) (read_elements one fuel ct bs s).
Proof.
  intros H. induction fuel as [|fuel IH]; intros ct bs s Hf Hn; [lia|]. cbn [read_elements].
  destruct (ct =? 0); [cbn; lia|].
  eapply fine_bind; [apply fine_tag|]. intros [[f w] r] Hr. cbn in Hr.
  destruct (negb (f =? 0)); [cbn; discriminate|]. destruct (w =? END_COMPOUND); [cbn; discriminate|].
  eapply fine_bind; [apply H; lia|]. intros [[v r2] s2] Hr2. cbn in Hr2.
  eapply fine_bind; [apply IH; lia|]. intros [[vs r3] s3] Hr3. cbn in *. lia.
Qed.

Lemma fine_list_body n fuel w t one enter bs s :
  reader n one -> (forall s, fine (fun _ => True) (enter s)) -> (length bs < fuel)%nat -> (length bs <= n)%nat ->
  fine (fun p => (length (snd (fst p)) <= length bs)%nat) (read_list_body fuel w t one enter bs s).
Proof.
  intros Hone Henter Hf Hn. unfold read_list_body.
  eapply fine_bind; [apply fine_tag|]. intros [[f w'] r] Hr. cbn in Hr.
  eapply fine_bind; [apply fine_uvarint|]. intros [ct r2] Hr2. cbn in Hr2.
  apply (fine_bind (fun p => (length (snd (fst p)) <= length r2)%nat)).
  2: { intros [[vs r3] s3] Hr3. cbn in Hr3. eapply fine_bind; [apply fine_finish|]. intros r4 Hr4. cbn in *. lia. }
  repeat match goal with
  | |- fine _ (Err _) => cbn; discriminate
  | |- fine _ (if ?c then _ else _) => destruct c
  end.
  - eapply fine_bind; [apply Henter|]. intros s' _. cbn. lia.
  - eapply fine_bind; [apply Henter|]. intros s' _. eapply fine_elements; [exact Hone|lia|lia].
  - assert (A : fine (fun p : list val * bytes * rstate => (length (snd (fst p)) <= length r2)%nat)
                  (s <- enter s ;; '(zs, bs) <- deserialize_int_list fuel ct r2 ;; Ok (map VInt zs, bs, s))).
    { eapply fine_bind; [apply Henter|]. intros s' _. eapply fine_bind; [apply fine_int_list; lia|].
      intros [zs r3] Hr3. exact Hr3. }
    destruct t; try (cbn; discriminate). destruct signed; [|cbn; discriminate].
    do 9 (destruct size as [|size]; try (cbn; discriminate)); try exact A.
  - eapply fine_bind; [apply Henter|]. intros s' _. eapply fine_bind; [apply fine_bytes|]. intros [d r3] Hr3. cbn in Hr3.
    eapply fine_bind; [apply fine_of_raws|]. intros vs _. exact Hr3.
  - eapply fine_bind; [apply Henter|]. intros s' _. cbn. lia.
Qed.

(** Callbacks of compound messages. *)
Definition fine_callback {A} (n : nat) (cb : Z -> Z -> bytes -> A -> result (bytes * A)) : Prop :=
  forall f w bs a, (length bs < n)%nat -> fine (fun p => (length (fst p) <= length bs)%nat) (cb f w bs a).

Lemma fine_consume_fields {A} n (cb : Z -> Z -> bytes -> A -> result (bytes * A)) : fine_callback n cb ->
  forall fuel bs a, (length bs < fuel)%nat -> (length bs <= n)%nat ->
  fine (fun p => (length (fst p) <= length bs)%nat) (consume_fields cb fuel bs a).
Proof.
  intros H. induction fuel as [|fuel IH]; intros bs a Hf Hn; [lia|]. cbn [consume_fields].
  eapply fine_bind; [apply fine_tag|]. intros [[f w] r] Hr. cbn in Hr.
  destruct (w =? END_COMPOUND); [cbn; lia|].
  eapply fine_bind; [apply H; lia|]. intros [r2 a2] Hr2. cbn in Hr2.
  eapply fine_weaken; [apply IH; lia|]. cbn. intros; lia.
Qed.

Lemma fine_consume {A} n (cb : Z -> Z -> bytes -> A -> result (bytes * A)) fuel w bs a : fine_callback n cb ->
  (length bs < fuel)%nat -> (length bs <= n)%nat ->
  fine (fun p => (length (fst p) <= length bs)%nat) (consume cb fuel w bs a).
Proof.
  intros H Hf Hn. unfold consume. destruct (w =? EMPTY); [cbn; lia|]. destruct (w =? SINGLE).
  - eapply fine_bind; [apply fine_tag|]. intros [[f w'] r] Hr. cbn in Hr.
    eapply fine_weaken; [apply H; lia|]. cbn. intros; lia.
  - destruct (w =? BEGIN_COMPOUND); [|cbn; discriminate]. now apply (fine_consume_fields n).
Qed.

Lemma fine_consume_numbered {A} n (cb : Z -> Z -> bytes -> A -> result (bytes * A)) fuel w bs a : fine_callback n cb ->
  (length bs < fuel)%nat -> (length bs <= n)%nat ->
  fine (fun p => (length (fst p) <= length bs)%nat) (consume_numbered cb fuel w bs a).
Proof.
  intros H Hf Hn. unfold consume_numbered. apply (fine_consume n); [|exact Hf|exact Hn].
  intros f w' r [k a'] Hr. destruct (f =? 0); [|cbn; discriminate].
  eapply fine_bind; [apply H; exact Hr|]. intros [r2 a2] Hr2. exact Hr2.
Qed.

Ltac fine_step :=
  match goal with
  | |- fine _ (Err _) => cbn; discriminate
  | |- fine _ (Ok _) => cbn in *; lia
  | |- fine _ (if ?c then _ else _) => destruct c
  | |- fine _ (bind (read_uvarint _) _) => eapply fine_bind; [apply fine_uvarint|intros [? ?] ?]
  | |- fine _ (bind (read_uvarint_object _) _) => eapply fine_bind; [apply fine_object|intros [? ?] ?]
  | |- fine _ (bind (read_tag _) _) => eapply fine_bind; [apply fine_tag|intros [[? ?] ?] ?]
  | |- fine _ (bind (read_bytes _ _) _) => eapply fine_bind; [apply fine_bytes|intros [? ?] ?]
  | |- fine _ (bind (lookup_cached _ _) _) => eapply fine_bind; [apply fine_lookup|intros ? _]
  | |- fine _ (bind (add_cached _ _ _) _) => eapply fine_bind; [apply fine_add|intros ? _]
  | |- fine _ (bind (finish_compound _ _) _) => eapply fine_bind; [apply fine_finish|intros ? ?]
  | |- fine _ (bind (finishReadingMessageAndDiscard _ _) _) => eapply fine_bind; [apply fine_discard|intros ? ?]
  | |- fine _ (bind (decode_string _) _) => eapply fine_bind; [apply fine_decode_string|intros ? _]
  end.

Lemma des_fine c fuel : forall t w bs s, (length bs + 1 < fuel)%nat ->
  fine (fun p => (length (snd (fst p)) <= length bs)%nat) (des c fuel t w bs s).
Proof.
  induction fuel as [|fuel IH]; intros t w bs s H; [lia|]. cbn [des]. set (D := des c fuel) in *.
  assert (R : forall t, reader (length bs) (D t)) by (intros t' w' r s' Hr; apply IH; lia).
  clearbody D. destruct (resolve c t) as [ |sg sz|sz| | | | |e|e|ts|ts|ts|k v|k v|k|n].
  - repeat fine_step.
  - fine_step; [|fine_step]. apply (fine_bind (fun p => (length (snd p) < length bs)%nat)).
    { destruct sg; [apply fine_svarint|apply fine_uvarint]. }
    intros [x r] Hr. cbn in *. lia.
  - repeat fine_step.
  - repeat fine_step.
  - repeat fine_step.
  - repeat fine_step.
  - repeat fine_step.
  - fine_step; [fine_step|]. fine_step; [fine_step|]. eapply fine_bind; [apply (fine_list_body (length bs)); [apply R|intros; exact I|lia|lia]|].
    intros [[vs r] s'] Hr. exact Hr.
  - fine_step; [fine_step|]. fine_step. cbn in *. fine_step.
    destruct a; [repeat fine_step|].
    eapply fine_bind; [apply (fine_list_body (length bs)); [apply R|intros; apply fine_add|lia|lia]|].
    intros [[vs r] s'] Hr. cbn in *. lia.
  - apply (fine_bind (fun p => (length (fst p) <= length bs)%nat)).
    { apply (fine_consume (length bs)); [|lia|lia]. intros f w' r [vs s'] Hr.
      destruct (if f <? _ then _ else _) as [t'|]; [|repeat fine_step].
      eapply fine_bind; [apply R; exact Hr|]. intros [[v r2] s2] Hr2. exact Hr2. }
    intros [r [vs s']] Hr. cbn in Hr. eapply fine_bind; [apply fine_fill, fine_default|]. intros [vs' s2] _. exact Hr.
  - apply (fine_bind (fun p => (length (fst p) <= length bs)%nat)).
    { apply (fine_consume (length bs)); [|lia|lia]. intros f w' r [o s'] Hr. destruct o; [cbn; discriminate|].
      destruct (if f <? _ then _ else _) as [t'|]; [|repeat fine_step].
      eapply fine_bind; [apply R; exact Hr|]. intros [[v r2] s2] Hr2. exact Hr2. }
    intros [r [[[i v]|] s']] Hr; [exact Hr|]. eapply fine_bind; [apply fine_default|]. intros [v s2] _. exact Hr.
  - fine_step; [|fine_step]. fine_step. cbn in *. destruct (if _ <? _ then _ else _); [|cbn; discriminate].
    eapply fine_bind; [apply R; assumption|]. intros [[v r2] s2] Hr2. cbn in *. lia.
  - apply (fine_bind (fun p => (length (fst p) <= length bs)%nat)).
    { apply (fine_consume_numbered (length bs)); [|lia|lia]. intros f w' r [[ct vs] s'] Hr.
      repeat fine_step. eapply fine_bind; [apply R; exact Hr|]. intros [[x r2] s2] Hr2. exact Hr2. }
    intros [r [n [[ct vs] s']]] Hr. cbn in Hr. repeat fine_step.
  - apply (fine_bind (fun p => (length (fst p) <= length bs)%nat)).
    { apply (fine_consume_numbered (length bs)); [|lia|lia]. intros f w' r [[[[id fo] ct] vs] s'] Hr.
      unfold alloc. repeat fine_step. eapply fine_bind; [apply R; exact Hr|]. intros [[x r2] s2] Hr2. exact Hr2. }
    intros [r [n [[[[id fo] ct] vs] s']]] Hr. cbn in Hr. destruct fo; repeat fine_step. destruct a; repeat fine_step.
  - apply (fine_bind (fun p => (length (fst p) <= length bs)%nat)).
    { apply (fine_consume_numbered (length bs)); [|lia|lia]. intros f w' r [[[[id fo] ct] vs] s'] Hr.
      unfold alloc. repeat fine_step. eapply fine_bind; [apply R; exact Hr|]. intros [[x r2] s2] Hr2. exact Hr2. }
    intros [r [n [[[[id fo] ct] vs] s']]] Hr. cbn in Hr. destruct fo; repeat fine_step. destruct a; repeat fine_step.
  - cbn; discriminate.
Qed.

Lemma deserialize_terminates c t bs : deserialize c t bs <> Err OutOfFuel.
Proof.
  assert (F : fine (fun _ => True) (deserialize c t bs)).
  { unfold deserialize. eapply fine_bind; [apply fine_tag|]. intros [[f w] r] Hr. cbn in Hr.
    eapply fine_bind; [apply des_fine; lia|]. intros [[v r2] s] _. exact I. }
  destruct (deserialize c t bs); cbn in F; congruence.
Qed.

Lemma deserialize_consumes c t bs v rest h : deserialize c t bs = Ok (v, rest, h) -> (length rest < length bs)%nat.
Proof.
  assert (F : fine (fun p => (length (snd (fst p)) < length bs)%nat) (deserialize c t bs)).
  { unfold deserialize. eapply fine_bind; [apply fine_tag|]. intros [[f w] r] Hr. cbn in Hr.
    eapply fine_bind; [apply des_fine; lia|]. intros [[v' r2] s] Hr2. cbn in *. lia. }
  intros E. rewrite E in F. exact F.
Qed.
