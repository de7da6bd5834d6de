(** The certificates of the named curves check. *)
From Coq Require Import List ZArith Znumtheory Bool Lia Uint63.
From Verif Require Import NamedModel NamedSpec PrimeCert PrimeData CurveCert CurveCertProofs CurveData.
Import ListNotations.
Open Scope Z_scope.

(** *** the orders are prime *)
Lemma chain_last known l n d : Forall prime known -> check_chain known l = true -> l <> [] -> st_n (last l d) = n -> prime n.
Proof.
  intros K H NE <-. pose proof (check_chain_ok l known K H) as F. rewrite Forall_forall in F. apply F. destruct (exists_last NE) as (l' & x & ->). rewrite last_last. apply in_or_app. right. left. reflexivity.
Qed.
Definition no_step : step := mkstep 0 0%uint63 [].
Definition order_checked (m : params) (known : list Z) (l : list step) : bool :=
  check_chain known l && (st_n (last l no_step) =? hexval (pm_n m)) && match l with [] => false | _ => true end.
Lemma order_prime m known l : Forall prime known -> order_checked m known l = true -> prime (hexval (pm_n m)).
Proof.
  intros K H. unfold order_checked in H. apply andb_prop in H. destruct H as [H H3]. apply andb_prop in H. destruct H as [H1 H2]. apply Z.eqb_eq in H2. apply (chain_last known l _ no_step K H1); [|exact H2]. intros ->. discriminate.
Qed.
Lemma prime_q199 : prime q199.
Proof. apply (chain_last [] chain_199 _ no_step); [constructor|vm_compute; reflexivity|discriminate|reflexivity]. Qed.
Lemma prime_q361 : prime q361.
Proof. apply (check_order_prime q361 a361 b361 x361 y361 q199 cert_361); [vm_compute; reflexivity|exact prime_q199]. Qed.
Lemma orders_prime m : In m named_curves -> prime (hexval (pm_n m)).
Proof.
  unfold named_curves. intros I. repeat (destruct I as [<-|I]); [..|destruct I].
  - apply (order_prime _ [] chain_brainpoolP256r1); [constructor|vm_compute; reflexivity].
  - apply (order_prime _ [] chain_brainpoolP320r1); [constructor|vm_compute; reflexivity].
  - apply (order_prime _ [] chain_brainpoolP384r1); [constructor|vm_compute; reflexivity].
  - apply (order_prime _ [] chain_brainpoolP512r1); [constructor|vm_compute; reflexivity].
  - apply (order_prime _ [] chain_secp256k1); [constructor|vm_compute; reflexivity].
  - apply (order_prime _ [] chain_secp256r1); [constructor|vm_compute; reflexivity].
  - apply (order_prime _ [] chain_secp384r1); [constructor|vm_compute; reflexivity].
  - apply (order_prime _ [q361] chain_secp521r1); [constructor; [exact prime_q361|constructor]|vm_compute; reflexivity].
Qed.
(** *** the curves *)
Definition curve_checked (m : params) (c : cert) (uv : list Z) : bool :=
  check_curve (hexval (pm_p m)) (hexval (pm_a m)) (hexval (pm_b m)) (hexval (pm_gx m)) (hexval (pm_gy m)) (hexval (pm_n m)) c uv.
Lemma curves_checked m : In m named_curves -> exists c uv, curve_checked m c uv = true.
Proof.
  unfold named_curves. intros I. repeat (destruct I as [<-|I]); [..|destruct I].
  - exists cert_brainpoolP256r1, roots_brainpoolP256r1. vm_compute. reflexivity.
  - exists cert_brainpoolP320r1, roots_brainpoolP320r1. vm_compute. reflexivity.
  - exists cert_brainpoolP384r1, roots_brainpoolP384r1. vm_compute. reflexivity.
  - exists cert_brainpoolP512r1, roots_brainpoolP512r1. vm_compute. reflexivity.
  - exists cert_secp256k1, roots_secp256k1. vm_compute. reflexivity.
  - exists cert_secp256r1, roots_secp256r1. vm_compute. reflexivity.
  - exists cert_secp384r1, roots_secp384r1. vm_compute. reflexivity.
  - exists cert_secp521r1, roots_secp521r1. vm_compute. reflexivity.
Qed.
