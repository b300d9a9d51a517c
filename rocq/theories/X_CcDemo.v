(** * A concrete kernel environment used by the examples and counterexamples about filters.

    struct net_device { ... int ifindex @216; }
    struct sk_buff { struct net_device *dev @16; unsigned int len @112; __u8 pkt_type:3 @128 bit 0;
                     __u8 cloned:1 @126 bit 1; u16 queue_mapping @124; char cb[48] @40; int mark @140;
                     u64 tstamp @32; u32 pair[2] @200; char tag[4] @208; u64 flags33:33 @216 } *)
From Coq Require Import ZArith List Bool String Lia.
From Verif Require Import M_Ebpf M_CcNum M_Cc S_CSem S_CSup.
Import ListNotations.
Open Scope Z_scope.

Definition u8 := TInt 1 false.
Definition u16 := TInt 2 false.
Definition u32 := TInt 4 false.
Definition u64 := TInt 8 false.
Definition i32 := TInt 4 true.
Definition mem (t : ty) (off : Z) : member * Z := ({| m_ty := t; m_bitoff := 8 * off; m_bits := 0 |}, off).
Definition bit (t : ty) (bitoff bits : Z) : member * Z :=
  ({| m_ty := t; m_bitoff := bitoff; m_bits := bits |}, bitoff / 8).
Fixpoint lookup (l : list (string * (member * Z))) (n : string) : option (member * Z) :=
  match l with [] => None | (x, m) :: l' => if String.eqb x n then Some m else lookup l' n end.
Local Open Scope string_scope.
Local Open Scope Z_scope.
Definition sk_buff : list (string * (member * Z)) :=
  [("dev", mem (TPtr (TStruct "net_device")) 16); ("tstamp", mem (TAlias u64) 32); ("cb", mem (TArr u8 48) 40);
   ("len", mem u32 112); ("queue_mapping", mem (TAlias u16) 124); ("cloned", bit u8 1009 1);
   ("pkt_type", bit u8 1024 3); ("mark", mem i32 140); ("pair", mem (TArr u32 2) 200); ("tag", mem (TArr u8 4) 208);
   ("flags33", bit u64 1728 33)].
Definition net_device : list (string * (member * Z)) :=
  [("ifindex", mem i32 216); ("state", mem (TEnum 4 [("RUNNING", 1); ("DOWN", 2)]) 220); ("peer", mem (TPtr (TStruct "net_device")) 224)].
Definition demo_env : benv := {|
  e_size := fun t => if String.eqb t "sk_buff" then 232 else if String.eqb t "net_device" then 2304 else 0;
  e_smember := fun t => if String.eqb t "sk_buff" then lookup sk_buff else
                        if String.eqb t "net_device" then lookup net_device else (fun _ => None);
  e_umember := fun _ _ => None;
  e_find := fun n => if String.eqb n "sk_buff" then Some (TStruct "sk_buff") else
                     if String.eqb n "net_device" then Some (TStruct "net_device") else None;
  e_kfind := fun n => if String.eqb n "u64" then Some u64 else if String.eqb n "u16" then Some u16 else
                      if String.eqb n "int" then Some i32 else if String.eqb n "u8" then Some u8 else
                      if String.eqb n "u32" then Some u32 else None;
  e_tid := fun t => match t with TStruct n => if String.eqb n "sk_buff" then Some 7 else
                                              if String.eqb n "net_device" then Some 9 else None
                            | _ => None end |}.
Definition demo_vars : list (string * ty) := [("skb", TPtr (TStruct "sk_buff")); ("ret", i32); ("n", u64); ("m", u64); ("c", u8); ("words", TPtr u32)].
Definition K (md : mode) : cfg :=
  {| cf_env := demo_env; cf_vars := demo_vars; cf_mode := md; cf_resv := 8; cf_fast := false |}.

(** Memory: the argument slots at 4096, an sk_buff at 0x10000 with len 1500, queue_mapping 3, a
    net_device at 0x20000 with ifindex 5, peer NULL; everything else zero. *)
Definition bytes_at (a v : Z) (n : Z) (x : Z) : option Z :=
  if (a <=? x) && (x <? a + n) then Some (Z.shiftr v (8 * (x - a)) mod 256) else None.
Fixpoint mem_of (l : list (Z * Z * Z)) (x : Z) : Z :=
  match l with
  | [] => 0
  | (a, v, n) :: l' => match bytes_at a v n x with Some b => b | None => mem_of l' x end
  end.
Definition slots : list Z := [65536; 2 ^ 32 - 1; 2 ^ 40; 3; 200; 65736].
Definition demo_mem : Z -> Z := mem_of
  [(4096, 65536, 8); (4104, 2 ^ 32 - 1, 8); (4112, 2 ^ 40, 8); (4120, 3, 8); (4128, 200, 8); (4136, 65736, 8);
   (65536 + 16, 131072, 8); (65536 + 32, 2 ^ 63 + 5, 8); (65536 + 40, 7, 1); (65536 + 112, 1500, 4); (65536 + 124, 3, 2);
   (65536 + 126, 2, 1); (65536 + 128, 4, 1); (65536 + 140, 2 ^ 32 - 7, 4); (65536 + 200, 11, 4); (65536 + 204, 12, 4);
   (65536 + 216, 2 ^ 40 + 2 ^ 32 + 3, 8);
   (131072 + 216, 5, 4); (131072 + 220, 1, 4)].
Definition demo_map (a : Z) : bool := (4096 <=? a) && (a <? 2 ^ 48).
Definition demo_C : cenv := {|
  ce_bt := demo_env; ce_vars := demo_vars; ce_slot := fun i => nth i slots 0; ce_mem := demo_mem; ce_map := demo_map;
  ce_enum := fun x => if String.eqb x "RUNNING" then Some 1 else if String.eqb x "DOWN" then Some 2 else None |}.
Definition demo_m : mach := {| mapped := demo_map; clob := fun _ _ => 12345 |}.
Definition demo_ms : mst :=
  {| rg := fun r => if Nat.eqb r 1 then 4096 else if Nat.eqb r 10 then 2 ^ 60 else 77; stk := fun _ => 0; ker := demo_mem; ncall := 0 |}.

Definition skb := EName "skb".
Definition arrow (e : expr) (l : list string) : expr := List.fold_left EArrow l e.
Definition sem_true (e : expr) : option bool :=
  match csem demo_C (cc2btf demo_env) e with Some v => truth v | None => None end.
(** Result of the compiled filter on the demo machine: None = not compiled / no result. *)
Definition verdict_with (md : mode) (C : cenv) (m : mach) (ms : mst) (e : expr) : option Z :=
  match compile_filter (K md) e with
  | inl (Some p) => match run (List.length (code p) + 1) m p 0 ms with Done r _ => Some r | _ => None end
  | _ => None
  end.
Definition verdict (md : mode) (e : expr) : option Z := verdict_with md demo_C demo_m demo_ms e.
Lemma demo_slots i : (i < List.length demo_vars)%nat ->
  Z.of_nat i * 8 < 2 ^ 15 /\ rd demo_C (4096 + Z.of_nat i * 8) 8 = Some (ce_slot demo_C i).
Proof. do 6 (destruct i as [|i]; [intros _; split; vm_compute; reflexivity|]). cbn. intros H. exfalso. lia. Qed.
