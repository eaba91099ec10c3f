(** Model of WriteOut with an order of blocks given by the caller (src/StarFile.nw
    837-896).  Unlike FileModel.write_out it keeps the list all_names, from which every
    block that is written is removed and whose rest is reported in a warning.  The
    parameter saves_after is accepted and not used, as in the code.  No proofs here. *)
From Coq Require Import String Ascii List NArith ZArith Bool.
From Verif Require Import PyBase StarBlockModel ScanModel OrderModel WriteModel CollectionModel FileModel.
Import ListNotations.

(** all_names.remove(x), 868 and 885 *)
Definition take_name (x : str) (names : list str) : outcome (list str) :=
  if mem str_eqb x names then Ret (remove1 str_eqb x names) else Raise ValueErr.

Section Given.
Context (maxout : Z) (hs : list hint).
(** The loop over the top blocks, 865-891, for the grammars without nesting: the text, and
    what is left of all_names. *)
Fixpoint write_listed (l : list wsec) (c : coll) (names : list str) : outcome (str * list str) :=
  match l with
  | [] => Ret ([], names)
  | WHead k :: r =>
      obind (id_of k c) (fun n => obind (take_name k names) (fun names =>
      obind (write_listed r c names) (fun t => Ret ([10%N] ++ u "data_" ++ n ++ [10%N] ++ fst t, snd t))))
  | WFrame k :: r =>
      obind (id_of k c) (fun n => obind (body_text maxout hs k c) (fun s => obind (take_name k names) (fun names =>
      obind (write_listed r c names) (fun t =>
      Ret ([10; 10]%N ++ u "save_" ++ n ++ [10%N] ++ s ++ [10; 10]%N ++ u "save_" ++ [10%N] ++ fst t, snd t)))))
  | WBody k :: r =>
      obind (body_text maxout hs k c) (fun s => obind (write_listed r c names) (fun t => Ret (s ++ fst t, snd t)))
  | WBodyTo k :: r =>
      obind (c_get k c) (fun b => obind (print_part (c_gram c) maxout hs (PFinish app_name) b) (fun x =>
      obind (write_listed r (set_dict (dset str_eqb k (snd x) (c_dict c)) c) names) (fun t => Ret (fst x ++ fst t, snd t))))
  | WBodyFrom k :: r =>
      obind (c_get k c) (fun b => obind (print_part (c_gram c) maxout hs (PStart app_name) b) (fun x =>
      obind (write_listed r c names) (fun t => Ret (fst x ++ fst t, snd t))))
  end.
(** 866-877 with nesting: only the data blocks are removed from all_names.  If a name occurs
    twice, the text before it has been written for nothing. *)
Fixpoint take_names (l names : list str) : outcome (list str) :=
  match l with
  | [] => Ret names
  | k :: r => obind (take_name k names) (take_names r)
  end.
(** WriteOut(comment,blockorder=order,saves_after=after): the text and the names in the
    warning.  862-863: without an order, that in which the blocks were put in. *)
Definition write_given (order : option (list str)) (after : option str) (comment : str) (c : coll) : outcome (str * list str) :=
  let order := match order with Some o => o | None => c_order c end in
  let names := map fst (c_child c) in
  obind (top_blocks order (c_child c)) (fun tops =>
  obind (match c_gram c with
         | GS2 => obind (write_nested maxout hs tops c) (fun t => obind (take_names tops names) (fun left => Ret (t, left)))
         | _ => obind (write_tops tops (set_corder order c)) (fun l => write_listed l c names)
         end) (fun t => Ret (file_head (c_gram c) comment ++ fst t, snd t))).
End Given.
