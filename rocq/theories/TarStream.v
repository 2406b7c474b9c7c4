(** * The tarball stream: integrity and spilling, proofs *)
From Verif Require Import Base Types StdPath Fs TarModel.
Open Scope string_scope.
Open Scope list_scope.

(** ** specification: the bytes a stream delivers, if it does not break *)
Fixpoint received (ev : list event) : option string :=
  match ev with
  | [] => Some ""
  | Broken :: _ => None
  | Chunk EmptyString :: _ => Some ""
  | Chunk s :: t => option_map (fun r => (s ++ r)%string) (received t)
  end.

Section Stream.
  Variable check : string -> string -> bool.
  Variable limit : nat.
  Definition verdict_of (c : checker) (rest : string) : bool := match c with Some (sri, seen) => check sri (seen ++ rest) | None => true end.
  Lemma length_sapp a b : String.length (a ++ b)%string = String.length a + String.length b.
  Proof. induction a; cbn; auto. Qed.
  Lemma verdict_feed c s r : verdict_of (feed c s) r = verdict_of c (s ++ r).
  Proof. destruct c as [[sri seen]|]; cbn; [now rewrite sapp_assoc|reflexivity]. Qed.
  Lemma verdict_end c : verdict_of c "" = match c with Some (sri, seen) => check sri seen | None => true end.
  Proof. destruct c as [[sri seen]|]; cbn; [now rewrite sapp_nil|reflexivity]. Qed.
  Lemma spill_ok : forall fuel c ev file, List.length ev < fuel ->
    spill_loop check fuel c ev file =
      match received ev with
      | None => Err EIo
      | Some r => if verdict_of c r then Ok (TFile (file ++ r)) else Err EIntegrity
      end.
  Proof.
    induction fuel as [|fuel IH]; intros c ev file Hf; [lia|]. cbn [spill_loop]. destruct ev as [|[[|a s]|] t]; cbn [poll_read received].
    - rewrite verdict_end. destruct c as [[sri seen]|]; [destruct (check sri seen)|]; cbn; try rewrite sapp_nil; reflexivity.
    - rewrite verdict_end. destruct c as [[sri seen]|]; [destruct (check sri seen)|]; cbn; try rewrite sapp_nil; reflexivity.
    - cbn [rbind]. cbn [String.length Nat.eqb]. cbn [List.length] in Hf. rewrite IH by lia. destruct (received t) as [r|]; cbn [option_map]; [|reflexivity].
      rewrite verdict_feed. cbn [String.append]. now rewrite (sapp_assoc file (String a s) r).
    - reflexivity.
  Qed.
  Lemma temp_ok : forall fuel c ev vec, List.length ev < fuel -> String.length vec <= limit ->
    temp_loop check limit fuel c ev vec =
      match received ev with
      | None => Err EIo
      | Some r => if verdict_of c r then Ok (if Nat.ltb limit (String.length vec + String.length r) then TFile (vec ++ r) else TMemory (vec ++ r)) else Err EIntegrity
      end.
  Proof.
    induction fuel as [|fuel IH]; intros c ev vec Hf Hv; [lia|]. cbn [temp_loop].
    assert (L0 : Nat.ltb limit (String.length vec + 0) = false) by (apply Nat.ltb_ge; lia).
    destruct ev as [|[[|a s]|] t]; cbn [poll_read received].
    - rewrite verdict_end. destruct c as [[sri seen]|]; [destruct (check sri seen)|]; cbn [rbind String.length Nat.eqb]; try rewrite sapp_nil; try rewrite L0; reflexivity.
    - rewrite verdict_end. destruct c as [[sri seen]|]; [destruct (check sri seen)|]; cbn [rbind String.length Nat.eqb]; try rewrite sapp_nil; try rewrite L0; reflexivity.
    - cbn [rbind]. cbn [List.length] in Hf. change (Nat.eqb (String.length (String a s)) 0) with false. cbv iota.
      destruct (Nat.ltb limit (String.length vec + String.length (String a s))) eqn:E.
      + rewrite spill_ok by lia. destruct (received t) as [r|]; cbn [option_map]; [|reflexivity]. rewrite verdict_feed.
        destruct (verdict_of c (String a s ++ r)); [|reflexivity]. apply Nat.ltb_lt in E.
        replace (Nat.ltb limit (String.length vec + String.length (String a s ++ r))) with true; [now rewrite sapp_assoc|].
        symmetry. apply Nat.ltb_lt. rewrite length_sapp. lia.
      + apply Nat.ltb_ge in E. rewrite IH; [|lia|rewrite length_sapp; lia]. destruct (received t) as [r|]; cbn [option_map]; [|reflexivity]. rewrite verdict_feed.
        destruct (verdict_of c (String a s ++ r)); [|reflexivity]. rewrite !length_sapp, Nat.add_assoc, sapp_assoc. reflexivity.
    - reflexivity.
  Qed.
  Lemma into_temp_ok c ev : into_temp check limit c ev =
    match received ev with
    | None => Err EIo
    | Some r => if verdict_of c r then Ok (if Nat.ltb limit (String.length r) then TFile r else TMemory r) else Err EIntegrity
    end.
  Proof. unfold into_temp. rewrite temp_ok by (cbn; lia). reflexivity. Qed.
End Stream.
