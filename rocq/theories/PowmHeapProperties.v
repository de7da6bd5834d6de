(** Property C62: the software exponentiation frees what it allocates, whichever requests fail. *)
From Coq Require Import List ZArith Bool Lia.
From Verif Require Import Outcome UtilsSpec RsaModel RsaSpec PowmModel PowmSpec PowmClaims PowmHeapModel PowmHeapSpec PowmHeap.
Import ListNotations.
Open Scope nat_scope.

(** With enough memory: the value of C11, every block the caller owned is as before, and nothing else is left.
    This holds for every base, exponent and modulus of bytes, also where the value is undefined. *)
Theorem C62_balanced : forall fails junk h base mod_ exp, heap_ok h -> all_bytes mod_ -> (Z.of_nat (length mod_) < 2 ^ 27)%Z -> none_fails fails h 7 ->
  exists h', h_live h' = h_live h /\ mod_exp_h fails junk h base exp mod_ = let* r := mod_exp_sw base exp mod_ in Ok (r, h').
Proof. exact mod_exp_heap. Qed.
Print Assumptions C62_balanced.

(** If any of the seven requests fails, the key generation has freed every block it obtained, each once, has
    touched no other and used no NULL pointer; powm then aborts. *)
Theorem C62_out_of_memory : forall fails junk h base m e, heap_ok h -> modulus_fit m -> all_bytes e -> length e <= 8 -> some_fails fails h 7 ->
  (exists p h', rsa_gen_key_prop_h fails junk h m e = Ok (false, p, h') /\ h_live h' = h_live h) /\ mod_exp_h fails junk h base e m = Abort.
Proof. exact powm_fit_gen. Qed.
Print Assumptions C62_out_of_memory.

(** The same wherever the key generation is defined at all. *)
Theorem C62_gen_fails : forall fails junk h mod_ exp k, heap_ok h -> all_bytes mod_ -> rsa_gen_key_prop mod_ exp = Ok k -> some_fails fails h 7 ->
  exists p h', rsa_gen_key_prop_h fails junk h mod_ exp = Ok (false, p, h') /\ h_live h' = h_live h.
Proof. exact gen_fails. Qed.
Print Assumptions C62_gen_fails.

(** On success the caller owns four blocks, which hold the key, and rsa_free_key_prop releases exactly these. *)
Theorem C62_gen_ok : forall fails junk h mod_ exp, heap_ok h -> all_bytes mod_ -> none_fails fails h 7 ->
  (forall k, rsa_gen_key_prop mod_ exp = Ok k -> exists p h', rsa_gen_key_prop_h fails junk h mod_ exp = Ok (true, p, h') /\ prop_at h' p k /\
     (exists bs, h_live h' = bs ++ h_live h /\ length bs = 4) /\ exists h'', rsa_free_key_prop h' p = Ok h'' /\ h_live h'' = h_live h).
Proof. exact gen_ok. Qed.
Print Assumptions C62_gen_ok.

(** ** Examples: a heap with two blocks of the caller; the modulus 2^64 - 59 *)
Definition hx : heap := mkheap 3 [(2, Array [5%Z]); (0, Array [])].
Definition hm : list Z := [255; 255; 255; 255; 255; 255; 255; 197]%Z.
Definition hb : list Z := [0; 0; 0; 5; 0; 0; 0; 7]%Z.
Definition hj (i j : nat) : Z := 99%Z.
Ltac bys := unfold all_bytes; repeat (apply Forall_cons; [unfold is_byte; lia|]); apply Forall_nil.
Example hx_ok : heap_ok hx. Proof. intros k b [E|[E|[]]]; injection E as <- _; cbn; lia. Qed.
Example hm_fit : modulus_fit hm. Proof. split; [bys|]. split; [cbn; lia|]. split; [reflexivity|]. split; reflexivity. Qed.
Example C62_ex : exists h', h_live h' = h_live hx /\ mod_exp_h (fun _ => false) hj hx hb [3%Z] hm = Ok (Some (I2OSP (8110 * 2 ^ 32 + 31318) 8), h').
Proof.
  destruct (C62_balanced (fun _ => false) hj hx hb hm [3%Z] hx_ok (proj1 hm_fit) eq_refl (fun _ _ => eq_refl)) as (h' & L & E). exists h'. split; [exact L|]. rewrite E.
  assert (V : mod_exp_sw hb [3%Z] hm = Ok (Some (I2OSP (8110 * 2 ^ 32 + 31318) 8))) by (vm_compute; reflexivity). rewrite V. reflexivity.
Qed.
(** the request for the exponent fails: the sixth *)
Example C62_ex_fails : (exists p h', rsa_gen_key_prop_h (Nat.eqb 8) hj hx hm [3%Z] = Ok (false, p, h') /\ h_live h' = h_live hx) /\ mod_exp_h (Nat.eqb 8) hj hx hb [3%Z] hm = Abort.
Proof. apply (C62_out_of_memory (Nat.eqb 8) hj hx hb hm [3%Z] hx_ok hm_fit); [bys|cbn; lia|exists 5; split; [lia|reflexivity]]. Qed.
Example C62_ex_gen : exists k p h', rsa_gen_key_prop_h (fun _ => false) hj hx hm [3%Z] = Ok (true, p, h') /\ prop_at h' p k /\ p_modulus k = hm.
Proof.
  assert (V : exists k, rsa_gen_key_prop hm [3%Z] = Ok k /\ p_modulus k = hm) by (eexists; split; [vm_compute; reflexivity|reflexivity]). destruct V as (k & V & K).
  destruct (C62_gen_ok (fun _ => false) hj hx hm [3%Z] hx_ok (proj1 hm_fit) (fun _ _ => eq_refl) k V) as (p & h' & E & P & _). exists k, p, h'. auto.
Qed.
