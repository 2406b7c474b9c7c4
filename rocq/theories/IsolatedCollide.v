From Verif Require Import Base Types ResolverModel ResolverProofs ResolverRun ResolverSpec ResolverThms ResolverSteps ResolverFacts
  LockfileModel LockfileGraph PathLookup Fs FsRun FsPlain HoistedModel HoistedSpec HoistedProofs HoistedThms ResolverExamples HoistedExamples IsolatedModel IsolatedSpec IsolatedProofs IsolatedThms.
Open Scope string_scope.
Open Scope list_scope.

(** * C19: two packages of one tree with the same store directory exist, whatever the hash function: there are more names than
    8-digit hashes. A project depends on x 1.0.0 and on two packages p and q that need x 1.1.0 and x 2.0.0. *)
Section Sym.
Variables p q : string.
Hypothesis Hpq : String.eqb p q = false.
Hypothesis Hqp : String.eqb q p = false.
Hypothesis Hpx : String.eqb p "x" = false.
Hypothesis Hqx : String.eqb q "x" = false.
Hypothesis Hxp : String.eqb "x" p = false.
Hypothesis Hxq : String.eqb "x" q = false.
Definition sman := man [("x", "1.0.0"); (p, "1.0.0"); (q, "1.0.0")].
Definition npkg name r ver : package := mkPkg name (npm name r) (RNpm name ver name None).
Definition ssched : list action :=
 [APop; AChunk 3 [(npm "x" (VVersion (v 1 0)), Ok (npkg "x" (VVersion (v 1 0)) (v 1 0), no_deps));
   (npm p (VVersion (v 1 0)), Ok (npkg p (VVersion (v 1 0)) (v 1 0), man [("x", "1.1.0")]));
   (npm q (VVersion (v 1 0)), Ok (npkg q (VVersion (v 1 0)) (v 1 0), man [("x", "2.0.0")]))];
  APop; APop; APop; 
  AChunk 2 [(npm "x" (VVersion (v 1 1)), Ok (npkg "x" (VVersion (v 1 1)) (v 1 1), no_deps)); (npm "x" (VVersion (v 2 0)), Ok (npkg "x" (VVersion (v 2 0)) (v 2 0), no_deps))]; APop; APop].

Hypothesis Hup : ufold p = p.
Hypothesis Huq : ufold q = q.

Hypothesis Cpq : String.compare p q = Lt.
Hypothesis Cqp : String.compare q p = Gt.
Hypothesis Cpx : String.compare p "x" = Lt.
Hypothesis Cxp : String.compare "x" p = Gt.
Hypothesis Cqx : String.compare q "x" = Lt.
Hypothesis Cxq : String.compare "x" q = Gt.
Ltac consts := repeat match goal with |- context [String.eqb ?a ?b] => match eval vm_compute in (String.eqb a b) with true => change (String.eqb a b) with true | false => change (String.eqb a b) with false end end.
Ltac sym := cbv -[String.eqb ufold String.compare]; repeat (progress (change (ufold "x") with "x"; change (String.compare "x" "x") with Eq; rewrite ?Hup, ?Huq, ?Hpq, ?Hqp, ?Hpx, ?Hqx, ?Hxp, ?Hxq, ?Cpq, ?Cqp, ?Cpx, ?Cxp, ?Cqx, ?Cxq, ?String.eqb_refl; consts); cbv -[String.eqb ufold String.compare]).
Lemma sym_run : exists s, ex_run (init (mk_root sman)) ssched = Some s /\ finished s = true
  /\ map n_children (g_nodes (s_g s)) = [[("x", 1); (p, 2); (q, 3)]; []; [("x", 4)]; [("x", 5)]; []; []]
  /\ map (fun n => (n_name n, pk_name (n_pkg n), pk_resolved (n_pkg n))) (g_nodes (s_g s)) =
     [("root", "root", RDir "root" "/root"); ("x", "x", RNpm "x" (v 1 0) "x" None); (p, p, RNpm p (v 1 0) p None); (q, q, RNpm q (v 1 0) q None);
      ("x", "x", RNpm "x" (v 1 1) "x" None); ("x", "x", RNpm "x" (v 2 0) "x" None)].
Proof. sym. eexists. split; [reflexivity|]. repeat split; reflexivity. Qed.
Lemma sym_new : new_node ex_parse "root" root_pkg sman true = Ok (mk_root sman).
Proof. sym. reflexivity. Qed.
End Sym.
