(* Types and values to run programs with: a value is a tag and a number, a type the list of tags it
   allows. *)
From Verif Require Import Base Vars_Model Vars_Spec.

Definition ty := list nat.
Definition val := (nat * nat)%type.
Definition tint : ty := [0]%nat.
Definition tfloat : ty := [1]%nat.
Definition tstr : ty := [2]%nat.
Definition tbool : ty := [3]%nat.
Definition terr : ty := [9]%nat.

Definition has (v : val) (t : ty) : bool := memb (fst v) t.
Fixpoint same (a b : ty) : bool :=
  match a, b with
  | [], [] => true
  | x :: a', y :: b' => Nat.eqb x y && same a' b'
  | _, _ => false
  end.
Definition join (a b : ty) : ty := a ++ filter (fun x => negb (memb x a)) b.
Definition without (a b : ty) : option ty :=
  match filter (fun x => negb (memb x b)) a with [] => None | r => Some r end.
Definition true_ (v : val) : bool := negb (Nat.eqb (snd v) 0).
(* 0: the sum, an error if the tags differ; 1: the first value, an error if the second is true *)
Definition do (o : nat) (a b : val) : val + val :=
  match o with
  | O => if Nat.eqb (fst a) (fst b) then inl (fst a, snd a + snd b)%nat else inr (9, 1)%nat
  | _ => if true_ b then inr (9, 2)%nat else inl a
  end.
Definition type_of (o : nat) (a b : ty) : ty := a.
Definition name_error : val := (9, 3)%nat.
Definition assertion_error : val := (9, 4)%nat.

Definition one : val := (0, 1)%nat.
Definition half : val := (1, 5)%nat.
Definition txt : val := (2, 7)%nat.
Definition yes : val := (3, 1)%nat.
Definition no : val := (3, 0)%nat.
Definition err : val := (9, 0)%nat.

Lemma memb_spec : forall x l, memb x l = true <-> In x l.
Proof.
  intros x l. unfold memb. rewrite existsb_exists. split.
  - intros (y & Hy & E). apply Nat.eqb_eq in E. now subst.
  - intros i. exists x; split; auto. apply Nat.eqb_refl.
Qed.

Lemma example_sensible : sensible has same join without do type_of.
Proof.
  constructor.
  - induction a as [|x a IH]; intros [|y b]; cbn; intros E; try discriminate; auto.
    apply andb_true_iff in E. destruct E as [E1 E2]. apply Nat.eqb_eq in E1. f_equal; auto.
  - unfold has, join. intros v a b. rewrite !memb_spec, in_app_iff. auto.
  - unfold has, join. intros v a b. rewrite !memb_spec, in_app_iff, filter_In.
    intros i. destruct (memb (fst v) a) eqn:M; [left; now apply memb_spec | right]. auto.
  - unfold has, without. intros v t r t' A B. 
    destruct (filter _ t) as [|y l] eqn:F; [discriminate|]. intros E; inversion E; subst.
    rewrite <- F. rewrite memb_spec, filter_In. rewrite memb_spec in A. now rewrite B.
  - intros [|o] a b ta tb v A B; unfold type_of; cbn.
    + destruct (Nat.eqb (fst a) (fst b)); intros E; inversion E; subst. exact A.
    + destruct (true_ b); intros E; inversion E; subst. exact A.
Qed.

(* Variable 0 is .return_value, 1 the argument c of type bool, 2 x, 3 y, 4 e, 5 z. *)
Definition any : ty := [0; 1; 2; 3; 9]%nat.
Definition slot (x : nat) : option ty :=
  match x with
  | 1%nat => Some tbool
  | 0%nat | 2%nat | 3%nat | 5%nat => Some any
  | 4%nat => Some [9; 0]%nat
  | _ => None
  end.
Definition start : state ty := [None; Some (tbool, false)].
Definition with_c (c : val) : env val := fun x => if Nat.eqb x 1 then Some c else None.

Definition convert (s : stmt ty val) := conv ty val has same join without type_of slot 20 false s start.
Definition run (s : stmt ty val) (m : env val) := exec ty val has true_ do name_error assertion_error 20 s m.
Definition compiled (s : stmt ty val) : stmt ty val :=
  match convert s with Done (s', _, _) => s' | Stop _ => SDead end.
Definition converts (s : stmt ty val) : bool := match convert s with Done _ => true | Stop _ => false end.

Definition rd (x : nat) : expr ty val := Read x Plain.
Definition set (x : nat) (e : expr ty val) : stmt ty val := SAssign x Free e.
Definition k (v : val) : expr ty val := Const v [fst v].
Definition if_c : stmt ty val -> stmt ty val -> stmt ty val := SIf (CTruth (rd 1)).
Definition may_fail (e : expr ty val) : expr ty val := Op 1 e (rd 1).   (* raises if c is true *)
Fixpoint block (l : list (stmt ty val)) : stmt ty val :=
  match l with [] => SPass | [s] => s | s :: r => SSeq s (block r) end.

Lemma start_agrees : forall c, has c tbool = true -> agrees has start (with_c c).
Proof.
  intros c Hc [|[|x]]; unfold so, get, start, with_c; cbn; auto. destruct x; cbn; auto.
Qed.
Lemma start_slots : forall c, has c tbool = true -> in_slots has slot (with_c c).
Proof.
  intros c Hc x v. unfold with_c. destruct (Nat.eqb x 1) eqn:E; [|discriminate].
  apply Nat.eqb_eq in E. intros Q; inversion Q; subst. exists tbool; auto.
Qed.
