(** C74: the word-array product and square of equal lengths. *)
From Coq Require Import List ZArith Lia.
From Verif Require Import WordsModel WordsSpec MulNModel MulNProofs.
Import ListNotations.
Open Scope Z_scope.

(** C74: what mul_n writes: the rows overwrite one another, so only the last is whole; of the others the lowest word stays. *)
Theorem C74_rows : forall x y, all_words x -> all_words y -> length x = length y -> x <> [] ->
  all_words (mul_n x y) /\ length (mul_n x y) = (2 * length x)%nat /\
  eval (mul_n x y) = eval (map (fun w => (hd 0 x * w) mod 2 ^ 32) (removelast y)) + (2 ^ 32) ^ (Z.of_nat (length x) - 1) * (eval x * last y 0).
Proof. exact mul_n_claim. Qed.
Print Assumptions C74_rows.
(** C74: it is never above the product, and is the product exactly when each word of y but the last times x fits one word. *)
Theorem C74_product : forall x y, all_words x -> all_words y -> length x = length y -> x <> [] ->
  eval (mul_n x y) <= eval x * eval y /\ (eval (mul_n x y) = eval x * eval y <-> Forall (fun w => eval x * w < 2 ^ 32) (removelast y)).
Proof. exact mul_n_right. Qed.
Print Assumptions C74_product.
(** C74: the square is right exactly when all words but the last are zero or the number is below 2^16. *)
Theorem C74_square : forall x, all_words x -> x <> [] ->
  (eval (sqr_n x) = eval x * eval x <-> Forall (fun w => w = 0) (removelast x) \/ eval x < 2 ^ 16).
Proof. exact sqr_n_right. Qed.
Print Assumptions C74_square.
(** C74 refuted: mul_n is not the product "z[2n] = x[n] * y[n]" its comment states, for any length above one: the accumulating pass takes get_mul_word, which overwrites, for get_mul_word_add (bigint.hpp 278). Nothing in the library calls mul_n or sqr_n. *)
Theorem C74_product_refuted : forall n, (2 <= n)%nat -> exists x y, all_words x /\ all_words y /\ length x = n /\ length y = n /\ eval (mul_n x y) < eval x * eval y.
Proof. exact mul_n_wrong. Qed.
Print Assumptions C74_product_refuted.
Example C74_ex : all_words [4294967295; 7] /\ mul_n [4294967295; 7] [5; 3] = [4294967291; 4294967293; 23; 0] /\ eval (mul_n [4294967295; 7] [5; 3]) <> eval [4294967295; 7] * eval [5; 3] /\
  mul_n [9; 0] [5; 3] = [45; 27; 0; 0] /\ Forall (fun w => eval [9; 0] * w < 2 ^ 32) (removelast [5; 3]) /\ sqr_n [0; 6] = [0; 0; 36; 0] /\ eval (sqr_n [1; 1]) <> eval [1; 1] * eval [1; 1].
Proof.
  split; [repeat constructor; unfold is_word; lia|]. split; [vm_compute; reflexivity|]. split; [vm_compute; discriminate|]. split; [vm_compute; reflexivity|].
  split; [repeat constructor; cbn; lia|]. split; [vm_compute; reflexivity|vm_compute; discriminate].
Qed.
