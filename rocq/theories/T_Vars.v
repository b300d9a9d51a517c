(** * Property C44: the variables of an expression. *)
From Coq Require Import List Bool String Sorted.
From Verif Require Import M_Cc M_OutArg M_Vars S_Vars P_Vars.
Import ListNotations.
Open Scope string_scope.
Open Scope list_scope.

(** C44.  For every expression whose variables are extracted: they are exactly the identifiers that occur in it (for a call, in its first argument), strictly
    increasing, so sorted and without duplicates. *)
Theorem C44_names : forall e l, extract e = Some l -> exists t, looked_at e = Some t /\ (forall x, In x l <-> occurs x t) /\ StronglySorted slt l.
Proof. exact extract_ok. Qed.
Print Assumptions C44_names.
(** C44.  Extraction gives a result for everything but a call without arguments. *)
Theorem C44_total : forall e, extract e = None <-> exists f, e = NCall f [].
Proof.
  intros e. split; [|intros [f ->]; reflexivity]. destruct e as [x| |k|f [|a args]]; try discriminate. intros _. exists f. reflexivity.
Qed.
Print Assumptions C44_total.
(** C44.  The names by which the compiler model decides whether an expression concerns a function are the extracted ones. *)
Theorem C44_expressions : forall e l, extract (tree e) = Some l -> forall x, In x l <-> In x (var_names e).
Proof.
  intros e l H x. destruct (extract_ok _ _ H) as (t & Ht & Hl & _). rewrite Hl. destruct e; cbn in Ht; try (injection Ht as <-; symmetry; exact (tree_names x _)).
  destruct args as [|a args]; [discriminate|]. injection Ht as <-. symmetry. exact (tree_names x a).
Qed.
Print Assumptions C44_expressions.
(** C44, refuted as to all expressions: a call without arguments such as "f()", which parses, crashes the extraction. *)
Theorem C44_empty_call_refuted : extract (tree (ECall (EName "f") [])) = None.
Proof. reflexivity. Qed.
Print Assumptions C44_empty_call_refuted.
(** "b + a->x + b" *)
Example C44_example : extract (NOp [NOp [NName "b"; NOp [NName "a"]]; NName "b"]) = Some ["a"; "b"].
Proof. reflexivity. Qed.
