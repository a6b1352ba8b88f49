(** * A concrete schema for the examples beside the theorems about objects. *)
From Coq Require Import String.
From Verif Require Import Base Prims Values MathModel QcNum Demo ChoiceModel FixedModel GroupModel
  SigModel WrapModel TextModel FieldModel World WorldSpec.
Open Scope list_scope.
Open Scope Z_scope.

Definition DP : prims := QP demo.
Definition demo_str (v : val) : res (list Z) := match v with VStr s => Ok s | VInt z => Ok [z] | _ => Ok [] end.
Definition empty : world DP := mkWorld DP [] [] (run_entropy 4).
Definition made_world {A} (m : M (world DP) A) : world DP := snd (m empty).

(** A wrapper that returns its argument (and takes no rng). *)
Definition one_param : signature := [mkParam "x" PosOrKw false].
Definition identity : wfun DP :=
  mkWfun DP (Some one_param)
    (fun args _ => match args with [v] => Ok v | _ => Raise TypeError end)
    (fun args _ r => (match args with [v] => Ok v | _ => Raise TypeError end, r)).

(** A schema:
      id    = Field('id', Choice([1, 2, 3]))
      copy  = Field('copy', CopyFields(id))
      word  = Field('word', Word(Choice([2, 3]), Choice('abc')), gate_emitter=Choice([True, False]))
      serial = Field('serial', Sequential([10, 20]), hide=True) *)
Definition demo_schema : M (world DP) (list (string * nat)) :=
  c <~ new_choice DP 9 true [VInt 1; VInt 2; VInt 3] None true false None None ;;
  l <~ new_choice DP 9 true [VInt 2; VInt 3] None true false None None ;;
  a <~ new_choice DP 9 true [VStr [97]; VStr [98]; VStr [99]] None true false None None ;;
  wd <~ new_word DP 9 l a None ;;
  g <~ new_choice DP 9 true [VBool true; VBool false] None true false None None ;;
  sq <~ new_seq DP true [VInt 10; VInt 20] false ;;
  f_id <~ new_field DP 9 "id" c None None false None ;;
  cp <~ new_copy DP true [f_id] None ;;
  f_copy <~ new_field DP 9 "copy" cp None None false None ;;
  f_word <~ new_field DP 9 "word" wd None (Some g) false None ;;
  f_serial <~ new_field DP 9 "serial" sq None None true None ;;
  ret [("id", f_id); ("copy", f_copy); ("word", f_word); ("serial", f_serial)]%string.
Definition demo_world : world DP := made_world demo_schema.
Definition demo_fields : list (string * nat) := [("id", 0%nat); ("copy", 1%nat); ("word", 2%nat); ("serial", 3%nat)]%string.

Lemma demo_schema_ok : demo_schema empty = (Ok demo_fields, demo_world).
Proof. unfold demo_world, made_world. destruct (demo_schema empty) as [r w] eqn:E. apply (f_equal fst) in E. vm_compute in E. subst r. reflexivity. Qed.

(** Finding the parts of concrete objects. *)
Definition closed_list (w : world DP) (l : list nat) : bool :=
  forallb (fun i => match get_em DP i w with
                    | Some e => forallb (fun k => existsb (Nat.eqb k) l) (children DP e)
                    | None => true end) l.
Lemma belongs_in w l i j : closed_list w l = true -> belongs DP w i j -> In i l -> In j l.
Proof.
  intros C B. induction B as [|i e k j E Hk B IH]; intros Hi; [exact Hi|]. apply IH.
  unfold closed_list in C. rewrite forallb_forall in C. specialize (C i Hi). rewrite E in C.
  rewrite forallb_forall in C. specialize (C k Hk). apply existsb_exists in C. destruct C as (x & Hx & Q).
  apply Nat.eqb_eq in Q. subst x. exact Hx.
Qed.
Definition parts_of (w : world DP) (f : nat) : list nat := match get_fd DP f w with Some x => parts DP x | None => [] end.
Lemma uses_in w l f j : closed_list w l = true -> forallb (fun k => existsb (Nat.eqb k) l) (parts_of w f) = true ->
  uses DP w f j -> In j l.
Proof.
  intros C Q (x & p & E & Hp & B). eapply belongs_in; [exact C | exact B|].
  unfold parts_of in Q. rewrite E in Q. rewrite forallb_forall in Q. specialize (Q p Hp).
  apply existsb_exists in Q. destruct Q as (y & Hy & Qy). apply Nat.eqb_eq in Qy. subst y. exact Hy.
Qed.
(** A run of a program up to a successful end, as an equation that does not
    compute the state. *)
Lemma ran {S A} (m : M S A) s a : fst (m s) = Ok a -> m s = (Ok a, snd (m s)).
Proof. destruct (m s) as [r s']. cbn. intros ->. reflexivity. Qed.

Lemma pure_by_class w l f : closed_list w l = true -> forallb (fun k => existsb (Nat.eqb k) l) (parts_of w f) = true ->
  forallb (fun j => match get_em DP j w with Some (EIter _ _) => false | Some (ESeq _ _ q) => s_own q | Some (EUser _ _ _ _) => false | _ => true end) l = true ->
  pure_factories DP w f.
Proof.
  intros C Q H j e U E. pose proof (uses_in _ _ _ _ C Q U) as Hj. rewrite forallb_forall in H. specialize (H j Hj).
  rewrite E in H. destruct e; auto; discriminate.
Qed.
Lemma reads_in w l ok f g : closed_list w l = true -> forallb (fun k => existsb (Nat.eqb k) l) (parts_of w f) = true ->
  forallb (fun j => match get_em DP j w with Some e => forallb (fun g => existsb (Nat.eqb g) ok) (source_of DP e) | _ => true end) l = true ->
  reads DP w f g -> In g ok.
Proof.
  intros C Q H (j & e & U & E & Hg). pose proof (uses_in _ _ _ _ C Q U) as Hj. rewrite forallb_forall in H. specialize (H j Hj).
  rewrite E in H. rewrite forallb_forall in H. specialize (H g Hg). apply existsb_exists in H. destruct H as (y & Hy & Qy). apply Nat.eqb_eq in Qy. subst y. exact Hy.
Qed.

Lemma part_used w f p : existsb (Nat.eqb p) (parts_of w f) = true -> uses DP w f p.
Proof.
  unfold parts_of. destruct (get_fd DP f w) as [x|] eqn:E; [|discriminate]. intros H. apply existsb_exists in H.
  destruct H as (y & Hy & Q). apply Nat.eqb_eq in Q. subst y. exists x, p. split; [exact E|]. split; [exact Hy | constructor].
Qed.
