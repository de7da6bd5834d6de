(** Packaged statements used by ExactProperties. *)
From Coq Require Import List ZArith Bool Lia.
From Verif Require Import Outcome UtilsModel UtilsSpec UtilsProofs MgfModel RsaModel RsaSpec RsaProofs RsaClaims RsaPss
  WordsSpec BigintModel BigintSpec BigintProofs BigintClaims NafExactSpec NafExact.
Import ListNotations.
Open Scope Z_scope.

Lemma pss_sizes_any hash hlen mod_exp n e salt_len digest sig : hash_ok hash hlen -> Z.of_nat hlen < 2 ^ 31 -> primitive mod_exp -> all_bytes digest ->
  let slen := match salt_len with Some s => s | None => Z.of_nat hlen end in
  0 <= slen < 2 ^ 32 -> 8 * zlen n < 2 ^ 32 ->
  let run := rsassa_pss_mgf1_verify mod_exp hash hlen n e salt_len digest sig in
  (exists b, run = Ok b /\ (b = true -> length sig = length n /\ Z.of_nat hlen + slen + 2 <= zlen n)) \/
  run = Abort \/ (run = UB /\ 2 ^ 32 <= Z.of_nat hlen + slen + 2 /\ length sig = length n).
Proof.
  intros Hh Hs31 Hpr Fd slen Ps Hk. cbv zeta.
  destruct (Z.ltb_spec (Z.of_nat hlen + slen + 10) (2 ^ 32)) as [W|W].
  { destruct (pss_malformed mod_exp hash hlen n e salt_len digest sig Hpr Hh Fd) as [H|H]; [exact (proj1 Ps)|exact W|exact Hk|left; exact H|right; left; exact H]. }
  unfold rsassa_pss_mgf1_verify.
  assert (ES : forall em, pss_check hash hlen (length n) salt_len digest em = pss_check hash hlen (length n) (Some slen) digest em) by (intros em; unfold slen; destruct salt_len; reflexivity).
  destruct (Nat.eqb_spec (length sig) (length n)) as [L|L]; cbn [negb]; [|left; exists false; split; [reflexivity|discriminate]].
  pose proof (rsavp1_total mod_exp n e sig Hpr) as H. destruct (rsavp1 mod_exp n e sig) as [em| | |]; try contradiction; [|right; left; reflexivity]. cbn [bind].
  rewrite ES. unfold zlen in Hk.
  assert (Em : em = [] \/ (all_bytes em /\ length em = length n)) by (destruct H as [H|(A & B & _)]; auto). clear H.
  assert (Le : (length em <= length n)%nat) by (destruct Em as [->|(_ & ->)]; cbn; lia).
  destruct (Z.ltb_spec (Z.of_nat hlen + slen + 2) (2 ^ 32)) as [W2|W2].
  - left. exists false. split; [|discriminate]. unfold pss_check. cbv zeta. unfold size32 at 1 2. rewrite (Z.mod_small (Z.of_nat hlen + slen)) by lia. rewrite (Z.mod_small (_ + 2)) by lia.
    unfold zlen. rewrite (proj2 (Z.ltb_lt _ _)) by lia. reflexivity.
  - destruct Em as [->|(Fe & Ln)].
    + unfold pss_check. cbv zeta. destruct (_ <? _); [left; exists false; split; [reflexivity|discriminate]|]. right. right. split; [reflexivity|]. split; [exact W2|exact L].
    + rewrite <- Ln. destruct (pss_check_wrap hash hlen Hh Hs31 slen digest em Fe) as [E|E]; [unfold zlen; lia|lia|lia| |]; rewrite E.
      * left. exists false. split; [reflexivity|discriminate].
      * right. right. split; [reflexivity|]. split; [exact W2|lia].
Qed.

Lemma naf_full_claim c x L : valid c x -> neg x = false -> can_resize c (size x + 1) = false -> is_naf L (value x) ->
  let l := naf_cut (2 ^ (32 * (Z.of_nat (size x) - 1))) L in
  to_naf c x = Ok l /\ to_rnaf c x = Ok (rev l) /\ (l = L \/ last l 0 = -1 /\ naf_value l < 0).
Proof.
  intros Hx Hn R H. cbv zeta. pose proof (to_naf_full c x L Hx Hn R H) as E. split; [exact E|]. split; [unfold to_rnaf; rewrite E; reflexivity|].
  apply naf_cut_value; [apply Z.pow_pos_nonneg; [lia|destruct Hx as (_ & ? & _); lia]|apply H].
Qed.
