(** * Properties C19, C20 (editing BPF programs) and C58 (session kfuncs). *)
From Coq Require Import List Bool String.
From Verif Require Import M_Asm S_Asm P_Asm.
Import ListNotations.
Open Scope string_scope.

(** C19.  For every program laid out from named functions: injecting code for a stub changes that function's body and nothing
    else; its name still marks the first injected instruction.  A program without the stub is unchanged. *)
Theorem C19_injection_redefines_only_the_stub : forall (B : Type) (fs : list (func B)) stub (c : ins B) (t : list (ins B)),
  wf_image fs -> stub <> "" -> inject (image fs) stub (c :: t) = image (redefine stub (i_body c) t fs).
Proof. exact inject_redefines. Qed.
Print Assumptions C19_injection_redefines_only_the_stub.

(** C20.  Clearing a stub removes that function and replaces every instruction that referred to it by R0 = default, leaving all
    else; nothing refers to the stub or carries its name any more.
    Missing: a function whose very first instruction refers to the stub (refuted below). *)
Theorem C20_clearing_removes_stub_and_calls_partial : forall (B : Type) (mov0 : bool -> B) (fs : list (func B)) stub is_filter,
  wf_image fs -> stub <> "" -> (forall f, In f fs -> f_ref f <> stub) ->
  clear_subprog mov0 (image fs) stub is_filter = image (redirect stub (mov0 is_filter) (remove stub fs)) /\
  (forall i, In i (clear_subprog mov0 (image fs) stub is_filter) -> i_ref i <> stub /\ i_sym i <> stub).
Proof.
  intros B mov0 fs stub flt Hw Hn Hh. pose proof (clear_ok B mov0 fs stub flt Hw Hn Hh) as E. split; [exact E|].
  intros i Hi. rewrite E in Hi. split; [exact (redirect_clean B _ _ _ i Hn Hi)|].
  refine (image_sym B _ stub _ _ Hn i Hi); [apply wf_redirect, wf_remove; exact Hw|].
  rewrite redirect_names. unfold remove. intros H. apply in_map_iff in H as (f & E1 & H). apply filter_In in H as [_ H].
  rewrite E1, String.eqb_refl in H. discriminate.
Qed.
Print Assumptions C20_clearing_removes_stub_and_calls_partial.
(** A wrapper whose first instruction calls the stub loses its name: afterwards the calls to it have no target. *)
Definition tail_call : list (func nat) :=
  [{| f_name := "main"; f_ref := ""; f_head := 1; f_rest := [{| i_sym := ""; i_ref := "wrap"; i_body := 2 |}] |};
   {| f_name := "wrap"; f_ref := "stub"; f_head := 2; f_rest := [{| i_sym := ""; i_ref := ""; i_body := 3 |}] |};
   {| f_name := "stub"; f_ref := ""; f_head := 4; f_rest := [{| i_sym := ""; i_ref := ""; i_body := 3 |}] |}].
Theorem C20_wrapper_loses_its_name_refuted :
  wf_image tail_call /\ map i_sym (clear_subprog (fun _ => 0) (image tail_call) "stub" true) = ["main"; ""; ""; ""] /\
  map i_ref (clear_subprog (fun _ => 0) (image tail_call) "stub" true) = [""; "wrap"; ""; ""].
Proof.
  split; [|split; reflexivity]. split; [repeat constructor; cbn; intuition discriminate|].
  intros f [<-|[<-|[<-|[]]]]; (split; [discriminate|]); cbn; intros i [<-|[]]; reflexivity.
Qed.
Print Assumptions C20_wrapper_loses_its_name_refuted.

(** C58.  With session support, exactly the calls of the two session stubs become calls of the kernel's session functions, each
    of its own, the stubs are gone and all else is left. *)
Theorem C58_session_calls_patched : forall (B : Type) (kcall : nat -> B) cookie isret (fs : list (func B)),
  wf_image fs -> (forall f, In f fs -> f_ref f <> "bpfsnoop_session_cookie" /\ f_ref f <> "bpfsnoop_session_is_return") ->
  patch_session kcall cookie isret (image fs) =
  image (remove "bpfsnoop_session_is_return" (remove "bpfsnoop_session_cookie"
    (redirect "bpfsnoop_session_is_return" (kcall isret) (redirect "bpfsnoop_session_cookie" (kcall cookie) fs)))).
Proof. exact patch_ok. Qed.
Print Assumptions C58_session_calls_patched.

(** main calls both session stubs, a filter stub twice and a helper; the stubs are in between. *)
Definition call (b : nat) (r : string) := {| i_sym := ""; i_ref := r; i_body := b |}.
Definition demo : list (func nat) :=
  [{| f_name := "bpfsnoop_session_cookie"; f_ref := ""; f_head := 10; f_rest := [call 3 ""] |};
   {| f_name := "main"; f_ref := ""; f_head := 1; f_rest := [call 2 "filter_arg"; call 2 "bpfsnoop_session_cookie"; call 2 "helper"; call 2 "filter_arg"; call 2 "bpfsnoop_session_is_return"; call 3 ""] |};
   {| f_name := "filter_arg"; f_ref := ""; f_head := 20; f_rest := [call 21 ""; call 3 ""] |};
   {| f_name := "bpfsnoop_session_is_return"; f_ref := ""; f_head := 30; f_rest := [call 3 ""] |};
   {| f_name := "helper"; f_ref := ""; f_head := 40; f_rest := [call 2 "filter_arg"; call 3 ""] |}].
Example demo_wf : wf_image demo /\ (forall f, In f demo -> f_ref f = "").
Proof.
  split; [split|].
  - repeat constructor; cbn; intuition discriminate.
  - intros f Hf. cbn [demo In] in Hf. repeat (destruct Hf as [<-|Hf]; [split; [discriminate|]; cbn; intros i Hi; repeat (destruct Hi as [<-|Hi]; [reflexivity|]); destruct Hi|]). destruct Hf.
  - intros f Hf. cbn [demo In] in Hf. repeat (destruct Hf as [<-|Hf]; [reflexivity|]). destruct Hf.
Qed.
Example demo_inject : map i_body (inject (image demo) "filter_arg" [call 50 ""; call 51 ""; call 3 ""]) =
  [10; 3; 1; 2; 2; 2; 2; 2; 3; 50; 51; 3; 30; 3; 40; 2; 3].
Proof. reflexivity. Qed.
Example demo_clear : map i_body (clear_subprog (fun b : bool => if b then 101 else 100) (image demo) "filter_arg" true) =
  [10; 3; 1; 101; 2; 2; 101; 2; 3; 30; 3; 40; 101; 3].
Proof. reflexivity. Qed.
Example demo_patch : map i_body (patch_session (fun n => n) 200 300 (image demo)) = [1; 2; 200; 2; 2; 300; 3; 20; 21; 3; 40; 2; 3].
Proof. reflexivity. Qed.
