(** * Notification chains whose callbacks register and unregister nodes *)
From Verif Require Import Lib SortSpec ListSortSpec Ptr ListModel IlistModel NotifierModel NotifierSpec ReentModel.
Section Spec.
Variable prio : Z -> Z.
Variable entry : Z -> bool.
Variable orc : list Z -> Z -> Z.
Variable act : list Z -> Z -> list act1.
Notation chain := (chain prio).
(** what a registration or unregistration does to the world *)
Definition acted1 (w : world) (a : act1) : world :=
  match a with
  | AReg n => if entry n then {| regs := n :: regs w; seen := n :: seen w; calls := calls w |} else w
  | AUnreg n => {| regs := filter (fun x => negb (x =? n)) (regs w); seen := seen w; calls := calls w |}
  end.
Definition acted (w : world) (l : list act1) : world := fold_left acted1 l w.
(** the whole call of node [x]: what it does, then whether it asks to be removed *)
Definition effect (w : world) (x : Z) : world :=
  let w1 := acted w (act (calls w) x) in
  {| regs := if Z.testbit (orc (calls w) x) 0 then filter (fun y => negb (y =? x)) (regs w1) else regs w1; seen := seen w1; calls := calls w ++ [x] |}.
(** the node behind [x] *)
Fixpoint behind (x : Z) (l : list Z) : option Z :=
  match l with [] => None | a :: r => if a =? x then match r with [] => None | b :: _ => Some b end else behind x r end.
(** A round: [x] is next and was followed by [y] when its turn was settled.  The trace lists the calls, each with the world it found. *)
Inductive round : world -> Z -> Z -> option Z -> option Z -> list (world * Z) -> world -> Z -> Prop :=
| r_end w num ret y : round w num ret None y [] w ret
| r_num w ret x y : round w 0 ret (Some x) y [] w ret
| r_stop w num ret x y : num <> 0 -> Z.testbit (orc (calls w) x) 1 = true -> round w num ret (Some x) y [(w, x)] (effect w x) (Z.ldiff (orc (calls w) x) 1)
| r_next w num ret x y tr w' ret' : num <> 0 -> Z.testbit (orc (calls w) x) 1 = false ->
    round (effect w x) (num - 1) (Z.ldiff (orc (calls w) x) 1) y (match y with Some b => behind b (chain (regs (effect w x))) | None => None end) tr w' ret' ->
    round w num ret (Some x) y ((w, x) :: tr) w' ret'.
Definition first (l : list Z) : option Z := match l with [] => None | a :: _ => Some a end.
(** what callbacks may do: register nodes that are not registered, unregister nodes that have been *)
Variable U : list Z.
Definition act_allowed (w : world) (a : act1) : Prop :=
  match a with AReg n => entry n = true -> In n U /\ ~ In n (regs w) | AUnreg n => In n (seen w) end.
Fixpoint acts_allowed (w : world) (l : list act1) : Prop :=
  match l with [] => True | a :: l => act_allowed w a /\ acts_allowed (acted1 w a) l end.
(** ... but not unregister the node whose turn is next, unless the round ends with this call *)
Fixpoint safe (k : nat) (w : world) (num : Z) (x y : option Z) : Prop :=
  match k, x with
  | S k, Some x => num = 0 \/ acts_allowed w (act (calls w) x) /\
      (Z.testbit (orc (calls w) x) 1 = true \/ num = 1 \/
       (forall b, y = Some b -> ~ In (AUnreg b) (act (calls w) x)) /\
       safe k (effect w x) (num - 1) y (match y with Some b => behind b (chain (regs (effect w x))) | None => None end))
  | _, _ => True
  end.
Definition starts (w : world) (P : option Z -> option Z -> Prop) : Prop :=
  P (first (chain (regs w))) (match first (chain (regs w)) with Some a => behind a (chain (regs w)) | None => None end).
(** histories *)
Inductive hist : world -> list nop -> list (list Z) -> world -> Prop :=
| h_nil w : hist w [] [] w
| h_reg w n ops outs w' : hist (acted1 w (AReg n)) ops outs w' -> hist w (NRegister n :: ops) ([if entry n then 0 else -22] :: outs) w'
| h_unreg w n ops outs w' : hist (acted1 w (AUnreg n)) ops outs w' -> hist w (NUnregister n :: ops) ([] :: outs) w'
| h_call w num tr w1 r ops outs w' : starts w (fun x y => round w num 0 x y tr w1 r) -> hist w1 ops outs w' -> hist w (NCall num :: ops) ([r; zlen tr] :: outs) w'.
(** every operation of the history is allowed in every world it may find *)
Fixpoint hist_allowed (w : world) (ops : list nop) : Prop :=
  match ops with
  | [] => True
  | NRegister n :: ops => act_allowed w (AReg n) /\ hist_allowed (acted1 w (AReg n)) ops
  | NUnregister n :: ops => act_allowed w (AUnreg n) /\ hist_allowed (acted1 w (AUnreg n)) ops
  | NCall num :: ops => 0 <= num < 2 ^ 32 /\ (forall k, starts w (safe k w num)) /\
      forall tr w1 r, starts w (fun x y => round w num 0 x y tr w1 r) -> hist_allowed w1 ops
  end.
End Spec.
