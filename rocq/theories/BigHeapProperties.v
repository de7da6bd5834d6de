(** C57: programs over big integers whose storage is on the heap compute on integers. *)
From Coq Require Import List ZArith Bool Lia.
From Verif Require Import Outcome LoopModel WordsModel BigintModel BigintSpec BufferModel BufferSpec BigHeapModel BigHeapSpec BigHeapProofs BigHeapClaims.
Import ListNotations.
Open Scope nat_scope.

(** every program computes the integers, unless it reaches an in-place addition that moves its own block *)
Theorem C57_programs : forall N n l vs, Forall (fun q => hnames n (fst q)) l -> zrun l (repeat None n) = Some vs ->
  match hrun N l (hinit N n) with
  | Ok s => values s = vs
  | UB => exists l1 o junk l2 s, l = l1 ++ (o, junk) :: l2 /\ hrun N l1 (hinit N n) = Ok s /\ hazard N s o
  | _ => False
  end.
Proof. exact programs_claim. Qed.
Print Assumptions C57_programs.

(** ... and then its behaviour is undefined *)
Theorem C57_hazard : forall N n l vs s junk o, Forall (fun q => hnames n (fst q)) l -> zrun l (repeat None n) = Some vs -> hrun N l (hinit N n) = Ok s ->
  hnames n o -> zstep o vs <> None -> hazard N s o -> hstep N junk o s = UB.
Proof. exact hazard_claim. Qed.
Print Assumptions C57_hazard.

(** all other in-place operations are safe *)
Theorem C57_no_inplace_addition : forall N n l vs, Forall (fun q => hnames n (fst q)) l -> Forall (fun q => ~ in_place (fst q)) l -> zrun l (repeat None n) = Some vs ->
  exists s, hrun N l (hinit N n) = Ok s /\ values s = vs.
Proof. exact no_inplace_claim. Qed.
Print Assumptions C57_no_inplace_addition.

Theorem C57_division_by_zero : forall N n l vs s junk o, Forall (fun q => hnames n (fst q)) l -> zrun l (repeat None n) = Some vs -> hrun N l (hinit N n) = Ok s ->
  hnames n o -> by_zero vs o -> hstep N junk o s = Abort.
Proof. exact div_zero_claim. Qed.
Print Assumptions C57_division_by_zero.

(** x = 1; x += x; x += x; ...: fine 32 N times (N the static words of the buffer), undefined at the next *)
Theorem C57_doubling_refuted : forall N k junk, 1 <= N ->
  zrun (doubling k junk) (repeat None 1) = Some [Some (2 ^ Z.of_nat k)%Z] /\
  (k <= 32 * N -> exists s, hrun N (doubling k junk) (hinit N 1) = Ok s /\ values s = [Some (2 ^ Z.of_nat k)%Z]) /\
  (32 * N < k -> hrun N (doubling k junk) (hinit N 1) = UB).
Proof. intros N k junk HN. exact (conj (doubling_value k junk) (doubling_claim N k junk HN)). Qed.
Print Assumptions C57_doubling_refuted.

(** a moved-from object has no value: as an operand it aborts, or reads the contents of fresh memory *)
Theorem C57_moved_from_refuted : exists N l s, Forall (fun q => hnames 3 (fst q)) l /\ hrun N l (hinit N 3) = Ok s /\ values s = [None; Some (5 * 2 ^ 64)%Z; None] /\
  (forall junk, hstep N junk (HMul 2 0 1) s = Abort) /\
  exists j1 j2 s1 s2, hstep N j1 (HMul 0 0 1) s = Ok s1 /\ hstep N j2 (HMul 0 0 1) s = Ok s2 /\ values s1 <> values s2.
Proof. exact moved_claim. Qed.
Print Assumptions C57_moved_from_refuted.

(** ** Examples *)
Definition ex_j (w : Z) : nat -> Z := fun _ => w.
(** x = 7 * 2^100; y = x * x (in place: x *= x on a copy); q, r = y / x; move, swap, shift, subtract in place *)
Definition ex_l : list (hop * (nat -> Z)) :=
  [(HWord 0 7%Z, ex_j 1); (HShl 0 0 100%Z, ex_j 2); (HCopy 1 0, ex_j 3); (HMul 1 1 1, ex_j 4); (HAddW 1 1 9%Z, ex_j 5);
   (HDivMod 2 3 1 0, ex_j 6); (HNeg 3 3, ex_j 7); (HMove 4 2, ex_j 8); (HSwap 3 4, ex_j 9); (HShr 1 1 3%Z, ex_j 10);
   (HSub 0 1 0, ex_j 11); (HDivI 1 1 (-10)%Z, ex_j 12)].
Example ex_names : Forall (fun q => hnames 5 (fst q)) ex_l /\ zrun ex_l (repeat None 5) <> None.
Proof. split; [repeat constructor; cbn; lia|discriminate]. Qed.
Example ex_programs : (let* s := hrun 2 ex_l (hinit 2 5) in Ok (values s)) =
  Ok [Some (((7 * 2 ^ 100) * (7 * 2 ^ 100) + 9) / 8 - 7 * 2 ^ 100)%Z; Some (- ((((7 * 2 ^ 100) * (7 * 2 ^ 100) + 9) / 8) / 10))%Z; None; Some (7 * 2 ^ 100)%Z; Some (- 9)%Z].
Proof. vm_compute. reflexivity. Qed.
(** no addition in place: the last subtraction has z = y, so drop it *)
Example ex_no_inplace : let l := firstn 10 ex_l in Forall (fun q => hnames 5 (fst q)) l /\ Forall (fun q => ~ in_place (fst q)) l /\ zrun l (repeat None 5) <> None.
Proof. split; [repeat constructor; cbn; lia|]. split; [repeat constructor; cbn; tauto|discriminate]. Qed.
(** a hazard is reached: 2^32 in a block of two words, to be doubled in place *)
Definition ex_h : list (hop * (nat -> Z)) := doubling 32 (fun _ _ => 0%Z).
Example ex_hazard : exists s, Forall (fun q => hnames 1 (fst q)) ex_h /\ zrun ex_h (repeat None 1) = Some [Some (2 ^ 32)%Z] /\ hrun 1 ex_h (hinit 1 1) = Ok s /\
  hnames 1 (HAdd 0 0 0) /\ zstep (HAdd 0 0 0) [Some (2 ^ 32)%Z] <> None /\ hazard 1 s (HAdd 0 0 0).
Proof.
  eexists. split; [apply doubling_names|]. split; [reflexivity|]. split; [vm_compute; reflexivity|]. split; [cbn; lia|]. split; [discriminate|].
  split; [left; reflexivity|]. eexists _, _, _, _, _. split; [reflexivity|]. split; [reflexivity|]. split; [reflexivity|]. split; [reflexivity|]. split; [discriminate|]. cbn. lia.
Qed.
Example ex_by_zero : by_zero [Some 5%Z; Some 0%Z] (HDivMod 2 3 0 1) /\ hnames 4 (HDivMod 2 3 0 1) /\
  (let* s := hrun 1 [(HWord 0 5%Z, ex_j 0); (HWord 1 0%Z, ex_j 0)] (hinit 1 4) in hstep 1 (ex_j 0) (HDivMod 2 3 0 1) s) = Abort.
Proof. split; [cbn; split; [discriminate|reflexivity]|]. split; [cbn; lia|]. vm_compute. reflexivity. Qed.
(** 32 doublings of 1 with N = 1 succeed, 33 are undefined *)
Example ex_doubling : (let* s := hrun 1 (doubling 32 (fun _ _ => 0%Z)) (hinit 1 1) in Ok (values s)) = Ok [Some (2 ^ 32)%Z] /\ hrun 1 (doubling 33 (fun _ _ => 0%Z)) (hinit 1 1) = UB.
Proof. split; vm_compute; reflexivity. Qed.
