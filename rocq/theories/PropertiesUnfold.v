(** Property C110: the items of a journal in several files. *)
From Coq Require Import ZArith NArith List Bool String Lia.
From Verif Require Import Base Str Date World Entry Account Ledger Importer SpecDate SpecLedger SpecInclude SpecUnfold
  StrFacts EntryFacts LedgerFacts LoadFacts IncludeFacts UnfoldFacts PropertiesLedger.
Import ListNotations.
Local Open Scope list_scope.

(** ** C110 *)
Lemma from_file_items today w p d xs : proper w -> unfolds w (cwd w) p d xs ->
  exists n, forall fuel, (n <= fuel)%nat -> from_file fuel today p w = let! l := items today xs (new_ledger p) in Ok (l, at_dir w d).
Proof.
  intros P U. destruct (proj1 (unfolds_load today w P) _ _ _ _ U (proj1 (proj2 P))) as (_ & n & H). exists n. intros fuel L.
  unfold from_file. rewrite <- (at_cwd w) at 1. apply H, L.
Qed.
(** The ledger depends on the items alone, not on the files in which they
    stand. *)
Theorem C110_same : forall today w w' p d d' xs, proper w -> proper w' ->
  unfolds w (cwd w) p d xs -> unfolds w' (cwd w') p d' xs ->
  exists n, forall fuel, (n <= fuel)%nat -> ledger_of (from_file fuel today p w) = ledger_of (from_file fuel today p w').
Proof.
  intros today w w' p d d' xs P P' U U'. destruct (from_file_items today w p d xs P U) as (n & H).
  destruct (from_file_items today w' p d' xs P' U') as (n' & H'). exists (Nat.max n n'). intros fuel L.
  rewrite H, H' by lia. destruct (items today xs (new_ledger p)); reflexivity.
Qed.
Print Assumptions C110_same.

(** What can be loaded has items, and the program ends in the directory of the
    last file. *)
Theorem C110_read : forall fuel today w p l w', proper w -> file_path p ->
  (forall q t g, files w q = Some t -> includes t g -> file_path g) ->
  from_file fuel today p w = Ok (l, w') -> exists xs, unfolds w (cwd w) p (cwd w') xs.
Proof.
  intros fuel today w p l w' P Fp Hf H. unfold from_file in H. rewrite <- (at_cwd w) in H.
  destruct (load_unfolds today w P fuel _ _ _ _ _ Fp (proj1 (proj2 P)) Hf H) as (xs & d' & U & _ & ->). exists xs. exact U.
Qed.
Print Assumptions C110_read.
Theorem C110_once : forall w d p d1 d2 xs ys, unfolds w d p d1 xs -> unfolds w d p d2 ys -> d1 = d2 /\ xs = ys.
Proof. intros w d p d1 d2 xs ys U V. exact (proj1 (unfolds_unique w) _ _ _ _ U _ _ V). Qed.
Print Assumptions C110_once.

(** If the items are those of the includes as they are meant, the journal is
    loaded as it is meant. *)
Theorem C30_items_partial : forall today w p d xs, proper w -> unfolds w (cwd w) p d xs -> meant w (cwd w) p xs ->
  exists n, forall fuel, (n <= fuel)%nat -> ledger_of (from_file fuel today p w) = load fuel today w (cwd w) p (new_ledger p).
Proof.
  intros today w p d xs P U M. destruct (from_file_items today w p d xs P U) as (n & H).
  destruct (proj1 (meant_load today w) _ _ _ M) as (n' & H'). exists (Nat.max n n'). intros fuel L.
  rewrite H, H' by lia. destruct (items today xs (new_ledger p)); reflexivity.
Qed.
Print Assumptions C30_items_partial.

(** The file that an entry is appended to: the path of the journal, seen from
    the directory of the last file. *)
Theorem C29_exact : forall fuel today w p l w1 e w2 l2, proper w -> file_path p ->
  (forall q t g, files w q = Some t -> includes t g -> file_path g) ->
  from_file fuel today p w = Ok (l, w1) -> append_entry today l w1 e = (w2, Ok l2) ->
  exists d xs old, unfolds w (cwd w) p d xs
  /\ files w (located d p) = Some old
  /\ files w2 (located d p) = Some (old ++ 10%N :: show_entry (l_format l) e)
  /\ forall q, q <> located d p -> files w2 q = files w q.
Proof.
  intros fuel today w p l w1 e w2 l2 P Fp Hf H A. pose proof H as H0. unfold from_file in H. rewrite <- (at_cwd w) in H.
  destruct (load_unfolds today w P fuel _ _ _ _ _ Fp (proj1 (proj2 P)) Hf H) as (xs & d & U & _ & ->).
  assert (Lp : l_path l = p) by exact (load_path today fuel p _ _ H). exists d, xs. unfold append_entry in A. rewrite Lp in A.
  pose proof (append_file_spec (at_dir w d) p (10%N :: show_entry (l_format l) e)) as S. rewrite resolve_located in S. cbn [at_dir files cwd] in S.
  destruct (files w (located d p)) as [old|] eqn:Ef; [|change (mkWorld (files w) (dirs w) d) with (at_dir w d) in S; rewrite S in A; discriminate].
  destruct S as (w' & E & _ & _ & Fo & Fq). change (mkWorld (files w) (dirs w) d) with (at_dir w d) in E. rewrite E in A.
  destruct (printable (l_format l)); [|discriminate]. injection A as <- _. exists old. auto.
Qed.
Print Assumptions C29_exact.

Example C29_exact_case :
  let nested := world_of [([lit "d"; lit "j"], []); ([lit "d"; lit "d"; lit "j"], lit "account y")] [[]; [lit "d"]; [lit "d"; lit "d"]] [] in
  match from_file 3 today (lit "d/j") nested with
  | Ok (l, w1) => cwd w1 = [lit "d"]
      /\ files (fst (append_entry today l w1 an_entry)) [lit "d"; lit "d"; lit "j"] = Some (lit "account y" ++ 10%N :: show_entry default_format an_entry)
  | _ => False
  end.
Proof. vm_compute. split; reflexivity. Qed.

(** The table and the rules of an import are looked for as if silverfox was
    started in the directory of the last file. *)
Theorem C69_exact : forall fuel today p w l w' n csv c rules, proper w -> file_path p ->
  (forall q t g, files w q = Some t -> includes t g -> file_path g) ->
  from_file fuel today p w = Ok (l, w') ->
  exists d xs, unfolds w (cwd w) p d xs
  /\ open_importer n w' csv c rules = open_importer n (mkWorld (files w) (dirs w) d) csv c rules.
Proof.
  intros fuel today p w l w' n csv c rules P Fp Hf H. unfold from_file in H. rewrite <- (at_cwd w) in H.
  destruct (load_unfolds today w P fuel _ _ _ _ _ Fp (proj1 (proj2 P)) Hf H) as (xs & d & U & _ & ->). exists d, xs. auto.
Qed.
Print Assumptions C69_exact.

Example C69_exact_case :
  let w := world_of [([lit "j"], lit "include d/k"); ([lit "d"; lit "k"], lit "account y"); ([lit "d"; lit "c"], lit "x");
                     ([lit "d"; lit "c.rules"], lit "fields date, description, amount")] [[]; [lit "d"]] [] in
  match from_file 3 today (lit "j") w with
  | Ok (_, w') => match open_importer 3 w (fun _ => []) (lit "c") None, open_importer 3 w' (fun _ => []) (lit "c") None with
                  | Err (EFile f), Ok (_, recs) => f = lit "c" /\ recs = []
                  | _, _ => False
                  end
  | _ => False
  end.
Proof. vm_compute. split; reflexivity. Qed.

(** Two directories: after the file in [b], the next one is looked for there. *)
Definition split_up : world := world_of
  [([lit "j"], text ["account x"; "include b/one"; "include two"; "account y"]%string);
   ([lit "b"; lit "one"], text ["account z"]%string);
   ([lit "b"; lit "two"], text ["; empty"; "include ../three"]%string);
   ([lit "two"], text ["account w"]%string);
   ([lit "three"], text ["currency $"]%string)] [[]; [lit "b"]] [].
Definition in_one : world := world_of [([lit "j"], text ["account x"; "account z"; "currency $"; "account y"]%string)] [[]] [].
Example C110_case :
  let xs := map lit ["account x"; "account z"; "currency $"; "account y"]%string in
  unfolds split_up [] (lit "j") [] xs /\ unfolds in_one [] (lit "j") [] xs
  /\ meant split_up [] (lit "j") (map lit ["account x"; "account z"; "account w"; "account y"]%string)
  /\ ledger_of (from_file 9 today (lit "j") split_up) = ledger_of (from_file 9 today (lit "j") in_one).
Proof.
  Ltac cut := unfold cut_up; vm_compute (contents _);
    repeat first [apply chunks_nil | apply chunks_new; [intros (? & ? & E & W); injection E as <- _; discriminate W|]].
  Ltac walk :=
    lazymatch goal with
    | |- unfolds _ _ _ _ _ => eapply unfolds_file; [vm_compute; discriminate|vm_compute; reflexivity|cut|]; vm_compute (removelast _); walk
    | |- follows _ _ (?c :: _) _ _ =>
        let k := eval vm_compute in (split_ws c) in
        let inc := eval vm_compute in (lit "include") in
        lazymatch k with
        | [] => apply follows_blank; [reflexivity|]; walk
        | inc :: _ => eapply follows_include; [reflexivity|reflexivity|walk|walk]
        | _ => apply follows_item; [discriminate|discriminate|]; walk
        end
    | |- follows _ _ [] _ _ => apply follows_nil
    | |- meant _ _ _ _ => eapply meant_file; [vm_compute; reflexivity|cut|]; vm_compute (removelast _); walk
    | |- meant_items _ _ (?c :: _) _ =>
        let k := eval vm_compute in (split_ws c) in
        let inc := eval vm_compute in (lit "include") in
        lazymatch k with
        | [] => apply meant_blank; [reflexivity|]; walk
        | inc :: _ => eapply meant_include; [reflexivity|reflexivity|walk|walk]
        | _ => apply meant_item; [discriminate|discriminate|]; walk
        end
    | |- meant_items _ _ [] _ => apply meant_nil
    end.
  cbv zeta.
  assert (K : forall w d p d' xs ys, unfolds w d p d' xs -> xs = ys -> unfolds w d p d' ys) by (intros; subst; assumption).
  assert (K' : forall w d p xs ys, meant w d p xs -> xs = ys -> meant w d p ys) by (intros; subst; assumption).
  split; [eapply K; [walk|reflexivity]|]. split; [eapply K; [walk|reflexivity]|]. split; [eapply K'; [walk|reflexivity]|].
  vm_compute. reflexivity.
Qed.
