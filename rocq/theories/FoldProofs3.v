(** Proofs about the place where an over-long line is cut. *)
From Coq Require Import String Ascii List NArith ZArith Bool Lia.
From Verif Require Import PyBase RegexModel RegexFacts FoldModel FoldSpec.
Import ListNotations.

Lemma search_none_head c t : ~ blank c -> re_match re_blanks (c :: t) = None.
Proof.
  intros H. unfold re_match, re_blanks, rplus, one_of. rewrite rmatch_seq_chr.
  destruct (existsb (N.eqb c) [32; 11; 12; 9]%N) eqn:E; [|reflexivity].
  exfalso. apply H. apply existsb_exists in E as (x & Hx & E). apply N.eqb_eq in E as ->.
  unfold blank. cbn in Hx. intuition auto.
Qed.
Lemma search_hit_head c t : blank c -> exists m, re_match re_blanks (c :: t) = Some m.
Proof.
  intros H. unfold re_match, re_blanks, rplus, one_of. rewrite rmatch_seq_chr.
  destruct (existsb (N.eqb c) [32; 11; 12; 9]%N) eqn:E.
  - rewrite rmatch_star_chr. 
    assert (chr_star (fun c0 => existsb (N.eqb c0) [32; 11; 12; 9]%N) t <> []) as Hn.
    { intros Hx. pose proof (chr_star_hd (fun c0 => existsb (N.eqb c0) [32; 11; 12; 9]%N) t) as Hh. rewrite Hx in Hh. discriminate. }
    destruct (chr_star _ t); [contradiction|]. cbn. eauto.
  - exfalso. assert (existsb (N.eqb c) [32; 11; 12; 9]%N = true); [|congruence].
    apply existsb_exists. exists c. split; [|apply N.eqb_refl]. unfold blank in H. cbn. intuition auto.
Qed.
Lemma search_first a c t : Forall (fun x => ~ blank x) a -> blank c -> re_search re_blanks (a ++ c :: t) = Some (length a).
Proof.
  induction 1 as [|x a Hx Ha IH]; intros Hc; cbn [app re_search length].
  - destruct (search_hit_head c t Hc) as [m ->]. reflexivity.
  - rewrite (search_none_head _ _ Hx), (IH Hc). reflexivity.
Qed.
Lemma search_none a : Forall (fun x => ~ blank x) a -> re_search re_blanks a = None.
Proof.
  induction 1 as [|x a Hx Ha IH]; [reflexivity|]. cbn [re_search]. rewrite (search_none_head _ _ Hx), IH. reflexivity.
Qed.
Lemma upto_app (a b : str) : upto (Z.of_nat (length a)) (a ++ b) = a.
Proof. unfold upto, slice_pos. destruct (Z.ltb_spec (Z.of_nat (length a)) 0); [lia|]. rewrite Nat2Z.id, firstn_app, Nat.sub_diag, firstn_all, app_nil_r. reflexivity. Qed.
Lemma from_app (a b : str) : from (Z.of_nat (length a)) (a ++ b) = b.
Proof. unfold from, slice_pos. destruct (Z.ltb_spec (Z.of_nat (length a)) 0); [lia|]. rewrite Nat2Z.id, skipn_app, Nat.sub_diag, skipn_all. reflexivity. Qed.
