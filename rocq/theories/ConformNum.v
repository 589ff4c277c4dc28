(** * The model of tm/num.py against the project's own tests

    The assertions of test/test_num.py, read as data (the numbers are line numbers there): what is built from the
    operators, and the value, text, remainder, comparison or depth expected.  Tests of the model, not proofs. *)
From Coq Require Import String Ascii.
From Verif Require Import Base NumTables NumModel NumShowModel.
Definition sqrt_of (b : Z) : option Z := let r := Z.sqrt b in if (r * r =? b) then Some r else None.
Fixpoint lg (fuel : nat) (b r : Z) : Z := match fuel with O => 0 | S f => if b <? r then 0 else 1 + lg f (b / r) r end.
Fixpoint strip (fuel : nat) (m r : Z) : Z := match fuel with O => m | S f => if (m mod r =? 0) && (0 <? m) then strip f (m / r) r else m end.
Definition fl : floats := Floats sqrt_of (lg 400) (fun m => (m mod 2 =? 0) && (strip 400 (m / 2) 3 =? 1)) (fun m => if (0 <? m) && (strip 400 m 2 =? 1) then Some (Z.log2 m) else None).
Definition D := 60%nat.
Definition o := ops_at fl D.
Inductive py := N (z : Z) | PExp (b e : py) | PAdd (a b : py) | PSub (a b : py) | PMul (a b : py) | PDiv (a b : py) | PPow (a b : py) | PMod (a b : py) | PNeg (a : py).
Fixpoint ev (p : py) : res cnt :=
  match p with
  | N z => Ok (I z)
  | PExp b e => match ev b with Ok (I b) => e <- ev e; make_exp fl o b e | _ => Fail end
  | PPow b e => x <- ev b; e <- ev e; match x with I b => int_pow fl o b e | Exp b x => y <- o_mul o x e; make_exp fl o b y | _ => Fail end
  | PAdd a b => x <- ev a; y <- ev b; o_add o x y
  | PSub a b => x <- ev a; y <- ev b; o_sub o x y
  | PMul a b => x <- ev a; y <- ev b; o_mul o x y
  | PDiv a b => x <- ev a; y <- ev b; o_div o x y
  | PMod a b => x <- ev a; y <- ev b; match y with I m => z <- num_mod fl (o_lt o) x m; Ok (I z) | _ => Fail end
  | PNeg a => x <- ev a; o_neg o x
  end.
Inductive test := TVal (e : py) (v : Z) | TRep (e : py) (s : string) | TMod (e : py) (m r : Z) | TLt (a b : py) (r : res bool) | TGt (a b : py) (r : res bool)
 | TDepth (e : py) (d : Z) | TModErr (e : py) (m : Z) | TEq (a b : py) (r : bool).
Definition rb (a b : res bool) := match a, b with Ok x, Ok y => Bool.eqb x y | NotImpl, NotImpl => true | Fail, Fail => true | _, _ => false end.
Definition str (l : list Z) : string := string_of_list_ascii (map (fun z => ascii_of_nat (Z.to_nat z)) l).
Definition run (t : test) : bool :=
  match t with
  | TVal e v => match ev e with Ok x => num_int x =? v | _ => false end
  | TRep e s => match ev e with Ok x => String.eqb (str (show (fun _ => 0) x)) s | _ => false end
  | TMod e m r => match ev e with Ok x => match num_mod fl (o_lt o) x m with Ok y => y =? r | _ => false end | _ => false end
  | TModErr e m => match ev e with Ok x => match num_mod fl (o_lt o) x m with Fail => true | _ => false end | _ => false end
  | TLt a b r => match ev a, ev b with Ok x, Ok y => rb (o_lt o x y) r | _, _ => false end
  | TGt a b r => match ev a, ev b with Ok x, Ok y => rb (gt o x y) r | _, _ => false end
  | TDepth e d => match ev e with Ok x => depth x =? d | _ => false end
  | TEq a b r => match ev a, ev b with Ok x, Ok y => Bool.eqb (cnt_eqb x y) r | _, _ => false end
  end.
Local Open Scope string_scope.
Definition tests : list (Z * test) := [
(213, TDepth (PExp (N 3) (N 3)) 1);
(214, TDepth (PNeg (PExp (N 2) (N 3))) 2);
(216, TVal (PAdd (PMul (PExp (N 2) (N 3)) (PAdd (PNeg (N 1)) (PPow (N 2) (PAdd (PNeg (N 3)) (PPow (N 2) (PExp (N 2) (N 3))))))) (PNeg (PMul (PExp (N 2) (N 3)) (PAdd (PNeg (N 1)) (PPow (N 2) (PAdd (PNeg (N 3)) (PExp (N 2) (N 3)))))))) 115792089237316195423570985008687907853269984665640564039457584007913129639680);
(216, TVal (PNeg (PAdd (PMul (PExp (N 2) (N 3)) (PAdd (PNeg (N 1)) (PPow (N 2) (PAdd (PNeg (N 3)) (PPow (N 2) (PExp (N 2) (N 3))))))) (PNeg (PMul (PExp (N 2) (N 3)) (PAdd (PNeg (N 1)) (PPow (N 2) (PAdd (PNeg (N 3)) (PExp (N 2) (N 3))))))))) (-115792089237316195423570985008687907853269984665640564039457584007913129639680));
(216, TRep (PAdd (PMul (PExp (N 2) (N 3)) (PAdd (PNeg (N 1)) (PPow (N 2) (PAdd (PNeg (N 3)) (PPow (N 2) (PExp (N 2) (N 3))))))) (PNeg (PMul (PExp (N 2) (N 3)) (PAdd (PNeg (N 1)) (PPow (N 2) (PAdd (PNeg (N 3)) (PExp (N 2) (N 3)))))))) "((2 ** (2 ** 3)) * (-1 + (2 ** ((2 ** 3) * (-1 + (2 ** (-3 + (2 ** 3))))))))");
(222, TVal (PAdd (PNeg (PMul (PExp (N 2) (N 3)) (PAdd (PNeg (N 1)) (PPow (N 2) (PAdd (PNeg (N 3)) (PExp (N 2) (N 3))))))) (PMul (PExp (N 2) (N 3)) (PAdd (PNeg (N 1)) (PPow (N 2) (PAdd (PNeg (N 3)) (PPow (N 2) (PExp (N 2) (N 3)))))))) 115792089237316195423570985008687907853269984665640564039457584007913129639680);
(222, TVal (PNeg (PAdd (PNeg (PMul (PExp (N 2) (N 3)) (PAdd (PNeg (N 1)) (PPow (N 2) (PAdd (PNeg (N 3)) (PExp (N 2) (N 3))))))) (PMul (PExp (N 2) (N 3)) (PAdd (PNeg (N 1)) (PPow (N 2) (PAdd (PNeg (N 3)) (PPow (N 2) (PExp (N 2) (N 3))))))))) (-115792089237316195423570985008687907853269984665640564039457584007913129639680));
(222, TRep (PAdd (PNeg (PMul (PExp (N 2) (N 3)) (PAdd (PNeg (N 1)) (PPow (N 2) (PAdd (PNeg (N 3)) (PExp (N 2) (N 3))))))) (PMul (PExp (N 2) (N 3)) (PAdd (PNeg (N 1)) (PPow (N 2) (PAdd (PNeg (N 3)) (PPow (N 2) (PExp (N 2) (N 3)))))))) "((2 ** (2 ** 3)) * (-1 + (2 ** ((2 ** 3) * (-1 + (2 ** (-3 + (2 ** 3))))))))");
(331, TVal (PSub (PMul (N 5) (PExp (N 2) (N 3))) (N 0)) 40);
(331, TVal (PNeg (PSub (PMul (N 5) (PExp (N 2) (N 3))) (N 0))) (-40));
(333, TVal (PAdd (PMul (N 7) (PExp (N 3) (N 3))) (PNeg (PMul (N 5) (PExp (N 3) (N 3))))) 54);
(333, TVal (PNeg (PAdd (PMul (N 7) (PExp (N 3) (N 3))) (PNeg (PMul (N 5) (PExp (N 3) (N 3)))))) (-54));
(333, TRep (PAdd (PMul (N 7) (PExp (N 3) (N 3))) (PNeg (PMul (N 5) (PExp (N 3) (N 3))))) "(2 * (3 ** 3))");
(338, TVal (PAdd (PNeg (PMul (N 5) (PExp (N 3) (N 3)))) (PMul (N 7) (PExp (N 3) (N 3)))) 54);
(338, TVal (PNeg (PAdd (PNeg (PMul (N 5) (PExp (N 3) (N 3)))) (PMul (N 7) (PExp (N 3) (N 3))))) (-54));
(338, TRep (PAdd (PNeg (PMul (N 5) (PExp (N 3) (N 3)))) (PMul (N 7) (PExp (N 3) (N 3)))) "(2 * (3 ** 3))");
(343, TVal (PAdd (PNeg (PMul (N 341) (PExp (N 2) (N 53)))) (PMul (N 3095) (PExp (N 2) (N 53)))) 24805826747556691968);
(343, TVal (PNeg (PAdd (PNeg (PMul (N 341) (PExp (N 2) (N 53)))) (PMul (N 3095) (PExp (N 2) (N 53))))) (-24805826747556691968));
(343, TRep (PAdd (PNeg (PMul (N 341) (PExp (N 2) (N 53)))) (PMul (N 3095) (PExp (N 2) (N 53)))) "(1377 * (2 ** 54))");
(348, TVal (PAdd (PMul (N 7) (PExp (N 2) (N 42))) (PAdd (PNeg (PMul (N 223) (PExp (N 2) (N 42)))) (PAdd (PMul (N 7) (PExp (N 2) (N 47))) (PAdd (PMul (N 11) (PExp (N 2) (N 53))) (PNeg (PMul (N 223) (PExp (N 2) (N 48)))))))) 36345456367763456);
(348, TVal (PNeg (PAdd (PMul (N 7) (PExp (N 2) (N 42))) (PAdd (PNeg (PMul (N 223) (PExp (N 2) (N 42)))) (PAdd (PMul (N 7) (PExp (N 2) (N 47))) (PAdd (PMul (N 11) (PExp (N 2) (N 53))) (PNeg (PMul (N 223) (PExp (N 2) (N 48))))))))) (-36345456367763456));
(348, TRep (PAdd (PMul (N 7) (PExp (N 2) (N 42))) (PAdd (PNeg (PMul (N 223) (PExp (N 2) (N 42)))) (PAdd (PMul (N 7) (PExp (N 2) (N 47))) (PAdd (PMul (N 11) (PExp (N 2) (N 53))) (PNeg (PMul (N 223) (PExp (N 2) (N 48)))))))) "(1033 * (2 ** 45))");
(353, TVal (PAdd (PNeg (PMul (N 341) (PExp (N 2) (N 53)))) (PAdd (PMul (N 3095) (PExp (N 2) (N 53))) (PAdd (PMul (N 4227601) (PExp (N 2) (N 60))) (PNeg (PMul (N 341) (PExp (N 2) (N 56))))))) 4874092339984591505850368);
(353, TVal (PNeg (PAdd (PNeg (PMul (N 341) (PExp (N 2) (N 53)))) (PAdd (PMul (N 3095) (PExp (N 2) (N 53))) (PAdd (PMul (N 4227601) (PExp (N 2) (N 60))) (PNeg (PMul (N 341) (PExp (N 2) (N 56)))))))) (-4874092339984591505850368));
(353, TRep (PAdd (PNeg (PMul (N 341) (PExp (N 2) (N 53)))) (PAdd (PMul (N 3095) (PExp (N 2) (N 53))) (PAdd (PMul (N 4227601) (PExp (N 2) (N 60))) (PNeg (PMul (N 341) (PExp (N 2) (N 56))))))) "(270566477 * (2 ** 54))");
(366, TRep (PSub (PPow (N 2) (PAdd (PNeg (N 1)) (PPow (N 2) (PExp (N 2) (N 258))))) (PAdd (PNeg (N 1)) (PPow (N 2) (PExp (N 2) (N 258))))) "(1 + ((2 ** (2 ** 258)) * (-1 + (2 ** (-1 + ((2 ** 258) * (-1 + (2 ** (-258 + (2 ** 258))))))))))");
(372, TVal (PDiv (PAdd (PNeg (N 2)) (PExp (N 2) (N 3))) (N 3)) 2);
(372, TVal (PNeg (PDiv (PAdd (PNeg (N 2)) (PExp (N 2) (N 3))) (N 3))) (-2));
(372, TRep (PDiv (PAdd (PNeg (N 2)) (PExp (N 2) (N 3))) (N 3)) "((-2 + (2 ** 3)) // 3)");
(377, TVal (PMul (N 16) (PDiv (PAdd (PNeg (N 4)) (PExp (N 2) (N 8))) (N 3))) 1344);
(377, TVal (PNeg (PMul (N 16) (PDiv (PAdd (PNeg (N 4)) (PExp (N 2) (N 8))) (N 3)))) (-1344));
(377, TRep (PMul (N 16) (PDiv (PAdd (PNeg (N 4)) (PExp (N 2) (N 8))) (N 3))) "((-64 + (2 ** 12)) // 3)");
(382, TVal (PMul (N 21) (PDiv (PSub (PExp (N 3) (N 4)) (N 3)) (N 2))) 819);
(382, TVal (PNeg (PMul (N 21) (PDiv (PSub (PExp (N 3) (N 4)) (N 3)) (N 2)))) (-819));
(382, TRep (PMul (N 21) (PDiv (PSub (PExp (N 3) (N 4)) (N 3)) (N 2))) "((-63 + (7 * (3 ** 5))) // 2)");
(387, TVal (PMul (N 85) (PDiv (PSub (PExp (N 2) (N 80)) (N 16)) (N 15))) 6850579644482898656668240);
(387, TVal (PNeg (PMul (N 85) (PDiv (PSub (PExp (N 2) (N 80)) (N 16)) (N 15)))) (-6850579644482898656668240));
(387, TRep (PMul (N 85) (PDiv (PSub (PExp (N 2) (N 80)) (N 16)) (N 15))) "((-272 + (17 * (2 ** 80))) // 3)");
(392, TVal (PDiv (PDiv (PMul (N 3) (PExp (N 5) (N 4))) (N 5)) (N 15)) 25);
(392, TVal (PNeg (PDiv (PDiv (PMul (N 3) (PExp (N 5) (N 4))) (N 5)) (N 15))) (-25));
(392, TRep (PDiv (PDiv (PMul (N 3) (PExp (N 5) (N 4))) (N 5)) (N 15)) "(5 ** 2)");
(397, TVal (PDiv (PDiv (PMul (N 3) (PExp (N 5) (N 4))) (N 15)) (N 5)) 25);
(397, TVal (PNeg (PDiv (PDiv (PMul (N 3) (PExp (N 5) (N 4))) (N 15)) (N 5))) (-25));
(397, TRep (PDiv (PDiv (PMul (N 3) (PExp (N 5) (N 4))) (N 15)) (N 5)) "(5 ** 2)");
(402, TVal (PDiv (PMul (N 3) (PExp (N 2) (N 3))) (N 4)) 6);
(402, TVal (PNeg (PDiv (PMul (N 3) (PExp (N 2) (N 3))) (N 4))) (-6));
(402, TRep (PDiv (PMul (N 3) (PExp (N 2) (N 3))) (N 4)) "6");
(407, TVal (PMul (PDiv (PMul (N 3) (PExp (N 2) (N 3))) (N 4)) (N 3)) 18);
(407, TVal (PNeg (PMul (PDiv (PMul (N 3) (PExp (N 2) (N 3))) (N 4)) (N 3))) (-18));
(407, TRep (PMul (PDiv (PMul (N 3) (PExp (N 2) (N 3))) (N 4)) (N 3)) "18");
(412, TVal (PDiv (PMul (N 3) (PExp (N 5) (N 2))) (N 5)) 15);
(412, TVal (PNeg (PDiv (PMul (N 3) (PExp (N 5) (N 2))) (N 5))) (-15));
(412, TRep (PDiv (PMul (N 3) (PExp (N 5) (N 2))) (N 5)) "15");
(417, TVal (PDiv (PAdd (PNeg (N 72)) (PMul (N 9) (PPow (N 2) (PAdd (PNeg (N 5)) (PExp (N 2) (N 5)))))) (N 3)) 402653160);
(417, TVal (PNeg (PDiv (PAdd (PNeg (N 72)) (PMul (N 9) (PPow (N 2) (PAdd (PNeg (N 5)) (PExp (N 2) (N 5)))))) (N 3))) (-402653160));
(417, TRep (PDiv (PAdd (PNeg (N 72)) (PMul (N 9) (PPow (N 2) (PAdd (PNeg (N 5)) (PExp (N 2) (N 5)))))) (N 3)) "(-24 + (3 * (2 ** (-5 + (2 ** 5)))))");
(422, TVal (PMul (PMul (N 2) (PExp (N 3) (N 13))) (PDiv (PAdd (PNeg (N 1)) (PExp (N 3) (N 7))) (N 2))) 3485190078);
(422, TVal (PNeg (PMul (PMul (N 2) (PExp (N 3) (N 13))) (PDiv (PAdd (PNeg (N 1)) (PExp (N 3) (N 7))) (N 2)))) (-3485190078));
(422, TRep (PMul (PMul (N 2) (PExp (N 3) (N 13))) (PDiv (PAdd (PNeg (N 1)) (PExp (N 3) (N 7))) (N 2))) "(2186 * (3 ** 13))");
(429, TVal (PDiv (PSub (PExp (N 4) (N 2)) (N 4)) (N 3)) 4);
(429, TVal (PNeg (PDiv (PSub (PExp (N 4) (N 2)) (N 4)) (N 3))) (-4));
(429, TRep (PDiv (PSub (PExp (N 4) (N 2)) (N 4)) (N 3)) "((-4 + (2 ** 4)) // 3)");
(429, TMod (PDiv (PSub (PExp (N 4) (N 2)) (N 4)) (N 3)) 2 0);
(429, TVal (PDiv (PSub (PExp (N 4) (N 3)) (N 4)) (N 3)) 20);
(429, TVal (PNeg (PDiv (PSub (PExp (N 4) (N 3)) (N 4)) (N 3))) (-20));
(429, TRep (PDiv (PSub (PExp (N 4) (N 3)) (N 4)) (N 3)) "((-4 + (2 ** 6)) // 3)");
(429, TMod (PDiv (PSub (PExp (N 4) (N 3)) (N 4)) (N 3)) 2 0);
(429, TVal (PDiv (PSub (PExp (N 4) (N 4)) (N 4)) (N 3)) 84);
(429, TVal (PNeg (PDiv (PSub (PExp (N 4) (N 4)) (N 4)) (N 3))) (-84));
(429, TRep (PDiv (PSub (PExp (N 4) (N 4)) (N 4)) (N 3)) "((-4 + (2 ** 8)) // 3)");
(429, TMod (PDiv (PSub (PExp (N 4) (N 4)) (N 4)) (N 3)) 2 0);
(429, TVal (PDiv (PSub (PExp (N 4) (N 5)) (N 4)) (N 3)) 340);
(429, TVal (PNeg (PDiv (PSub (PExp (N 4) (N 5)) (N 4)) (N 3))) (-340));
(429, TRep (PDiv (PSub (PExp (N 4) (N 5)) (N 4)) (N 3)) "((-4 + (2 ** 10)) // 3)");
(429, TMod (PDiv (PSub (PExp (N 4) (N 5)) (N 4)) (N 3)) 2 0);
(429, TVal (PDiv (PSub (PExp (N 4) (N 6)) (N 4)) (N 3)) 1364);
(429, TVal (PNeg (PDiv (PSub (PExp (N 4) (N 6)) (N 4)) (N 3))) (-1364));
(429, TRep (PDiv (PSub (PExp (N 4) (N 6)) (N 4)) (N 3)) "((-4 + (2 ** 12)) // 3)");
(429, TMod (PDiv (PSub (PExp (N 4) (N 6)) (N 4)) (N 3)) 2 0);
(429, TVal (PDiv (PSub (PExp (N 4) (N 7)) (N 4)) (N 3)) 5460);
(429, TVal (PNeg (PDiv (PSub (PExp (N 4) (N 7)) (N 4)) (N 3))) (-5460));
(429, TRep (PDiv (PSub (PExp (N 4) (N 7)) (N 4)) (N 3)) "((-4 + (2 ** 14)) // 3)");
(429, TMod (PDiv (PSub (PExp (N 4) (N 7)) (N 4)) (N 3)) 2 0);
(429, TVal (PDiv (PSub (PExp (N 4) (N 8)) (N 4)) (N 3)) 21844);
(429, TVal (PNeg (PDiv (PSub (PExp (N 4) (N 8)) (N 4)) (N 3))) (-21844));
(429, TRep (PDiv (PSub (PExp (N 4) (N 8)) (N 4)) (N 3)) "((-4 + (2 ** 16)) // 3)");
(429, TMod (PDiv (PSub (PExp (N 4) (N 8)) (N 4)) (N 3)) 2 0);
(429, TVal (PDiv (PSub (PExp (N 4) (N 9)) (N 4)) (N 3)) 87380);
(429, TVal (PNeg (PDiv (PSub (PExp (N 4) (N 9)) (N 4)) (N 3))) (-87380));
(429, TRep (PDiv (PSub (PExp (N 4) (N 9)) (N 4)) (N 3)) "((-4 + (2 ** 18)) // 3)");
(429, TMod (PDiv (PSub (PExp (N 4) (N 9)) (N 4)) (N 3)) 2 0);
(429, TVal (PDiv (PSub (PExp (N 4) (N 10)) (N 4)) (N 3)) 349524);
(429, TVal (PNeg (PDiv (PSub (PExp (N 4) (N 10)) (N 4)) (N 3))) (-349524));
(429, TRep (PDiv (PSub (PExp (N 4) (N 10)) (N 4)) (N 3)) "((-4 + (2 ** 20)) // 3)");
(429, TMod (PDiv (PSub (PExp (N 4) (N 10)) (N 4)) (N 3)) 2 0);
(429, TVal (PDiv (PSub (PExp (N 4) (N 11)) (N 4)) (N 3)) 1398100);
(429, TVal (PNeg (PDiv (PSub (PExp (N 4) (N 11)) (N 4)) (N 3))) (-1398100));
(429, TRep (PDiv (PSub (PExp (N 4) (N 11)) (N 4)) (N 3)) "((-4 + (2 ** 22)) // 3)");
(429, TMod (PDiv (PSub (PExp (N 4) (N 11)) (N 4)) (N 3)) 2 0);
(429, TVal (PDiv (PSub (PExp (N 4) (N 12)) (N 4)) (N 3)) 5592404);
(429, TVal (PNeg (PDiv (PSub (PExp (N 4) (N 12)) (N 4)) (N 3))) (-5592404));
(429, TRep (PDiv (PSub (PExp (N 4) (N 12)) (N 4)) (N 3)) "((-4 + (2 ** 24)) // 3)");
(429, TMod (PDiv (PSub (PExp (N 4) (N 12)) (N 4)) (N 3)) 2 0);
(429, TVal (PDiv (PSub (PExp (N 4) (N 13)) (N 4)) (N 3)) 22369620);
(429, TVal (PNeg (PDiv (PSub (PExp (N 4) (N 13)) (N 4)) (N 3))) (-22369620));
(429, TRep (PDiv (PSub (PExp (N 4) (N 13)) (N 4)) (N 3)) "((-4 + (2 ** 26)) // 3)");
(429, TMod (PDiv (PSub (PExp (N 4) (N 13)) (N 4)) (N 3)) 2 0);
(429, TVal (PDiv (PSub (PExp (N 4) (N 14)) (N 4)) (N 3)) 89478484);
(429, TVal (PNeg (PDiv (PSub (PExp (N 4) (N 14)) (N 4)) (N 3))) (-89478484));
(429, TRep (PDiv (PSub (PExp (N 4) (N 14)) (N 4)) (N 3)) "((-4 + (2 ** 28)) // 3)");
(429, TMod (PDiv (PSub (PExp (N 4) (N 14)) (N 4)) (N 3)) 2 0);
(429, TVal (PDiv (PSub (PExp (N 4) (N 15)) (N 4)) (N 3)) 357913940);
(429, TVal (PNeg (PDiv (PSub (PExp (N 4) (N 15)) (N 4)) (N 3))) (-357913940));
(429, TRep (PDiv (PSub (PExp (N 4) (N 15)) (N 4)) (N 3)) "((-4 + (2 ** 30)) // 3)");
(429, TMod (PDiv (PSub (PExp (N 4) (N 15)) (N 4)) (N 3)) 2 0);
(429, TVal (PDiv (PSub (PExp (N 4) (N 16)) (N 4)) (N 3)) 1431655764);
(429, TVal (PNeg (PDiv (PSub (PExp (N 4) (N 16)) (N 4)) (N 3))) (-1431655764));
(429, TRep (PDiv (PSub (PExp (N 4) (N 16)) (N 4)) (N 3)) "((-4 + (2 ** 32)) // 3)");
(429, TMod (PDiv (PSub (PExp (N 4) (N 16)) (N 4)) (N 3)) 2 0);
(429, TVal (PDiv (PSub (PExp (N 4) (N 17)) (N 4)) (N 3)) 5726623060);
(429, TVal (PNeg (PDiv (PSub (PExp (N 4) (N 17)) (N 4)) (N 3))) (-5726623060));
(429, TRep (PDiv (PSub (PExp (N 4) (N 17)) (N 4)) (N 3)) "((-4 + (2 ** 34)) // 3)");
(429, TMod (PDiv (PSub (PExp (N 4) (N 17)) (N 4)) (N 3)) 2 0);
(429, TVal (PDiv (PSub (PExp (N 4) (N 18)) (N 4)) (N 3)) 22906492244);
(429, TVal (PNeg (PDiv (PSub (PExp (N 4) (N 18)) (N 4)) (N 3))) (-22906492244));
(429, TRep (PDiv (PSub (PExp (N 4) (N 18)) (N 4)) (N 3)) "((-4 + (2 ** 36)) // 3)");
(429, TMod (PDiv (PSub (PExp (N 4) (N 18)) (N 4)) (N 3)) 2 0);
(429, TVal (PDiv (PSub (PExp (N 4) (N 19)) (N 4)) (N 3)) 91625968980);
(429, TVal (PNeg (PDiv (PSub (PExp (N 4) (N 19)) (N 4)) (N 3))) (-91625968980));
(429, TRep (PDiv (PSub (PExp (N 4) (N 19)) (N 4)) (N 3)) "((-4 + (2 ** 38)) // 3)");
(429, TMod (PDiv (PSub (PExp (N 4) (N 19)) (N 4)) (N 3)) 2 0);
(429, TVal (PDiv (PSub (PExp (N 4) (N 20)) (N 4)) (N 3)) 366503875924);
(429, TVal (PNeg (PDiv (PSub (PExp (N 4) (N 20)) (N 4)) (N 3))) (-366503875924));
(429, TRep (PDiv (PSub (PExp (N 4) (N 20)) (N 4)) (N 3)) "((-4 + (2 ** 40)) // 3)");
(429, TMod (PDiv (PSub (PExp (N 4) (N 20)) (N 4)) (N 3)) 2 0);
(429, TVal (PDiv (PSub (PExp (N 4) (N 21)) (N 4)) (N 3)) 1466015503700);
(429, TVal (PNeg (PDiv (PSub (PExp (N 4) (N 21)) (N 4)) (N 3))) (-1466015503700));
(429, TRep (PDiv (PSub (PExp (N 4) (N 21)) (N 4)) (N 3)) "((-4 + (2 ** 42)) // 3)");
(429, TMod (PDiv (PSub (PExp (N 4) (N 21)) (N 4)) (N 3)) 2 0);
(429, TVal (PDiv (PSub (PExp (N 4) (N 22)) (N 4)) (N 3)) 5864062014804);
(429, TVal (PNeg (PDiv (PSub (PExp (N 4) (N 22)) (N 4)) (N 3))) (-5864062014804));
(429, TRep (PDiv (PSub (PExp (N 4) (N 22)) (N 4)) (N 3)) "((-4 + (2 ** 44)) // 3)");
(429, TMod (PDiv (PSub (PExp (N 4) (N 22)) (N 4)) (N 3)) 2 0);
(429, TVal (PDiv (PSub (PExp (N 4) (N 23)) (N 4)) (N 3)) 23456248059220);
(429, TVal (PNeg (PDiv (PSub (PExp (N 4) (N 23)) (N 4)) (N 3))) (-23456248059220));
(429, TRep (PDiv (PSub (PExp (N 4) (N 23)) (N 4)) (N 3)) "((-4 + (2 ** 46)) // 3)");
(429, TMod (PDiv (PSub (PExp (N 4) (N 23)) (N 4)) (N 3)) 2 0);
(429, TVal (PDiv (PSub (PExp (N 4) (N 24)) (N 4)) (N 3)) 93824992236884);
(429, TVal (PNeg (PDiv (PSub (PExp (N 4) (N 24)) (N 4)) (N 3))) (-93824992236884));
(429, TRep (PDiv (PSub (PExp (N 4) (N 24)) (N 4)) (N 3)) "((-4 + (2 ** 48)) // 3)");
(429, TMod (PDiv (PSub (PExp (N 4) (N 24)) (N 4)) (N 3)) 2 0);
(429, TVal (PDiv (PSub (PExp (N 4) (N 25)) (N 4)) (N 3)) 375299968947540);
(429, TVal (PNeg (PDiv (PSub (PExp (N 4) (N 25)) (N 4)) (N 3))) (-375299968947540));
(429, TRep (PDiv (PSub (PExp (N 4) (N 25)) (N 4)) (N 3)) "((-4 + (2 ** 50)) // 3)");
(429, TMod (PDiv (PSub (PExp (N 4) (N 25)) (N 4)) (N 3)) 2 0);
(429, TVal (PDiv (PSub (PExp (N 4) (N 26)) (N 4)) (N 3)) 1501199875790164);
(429, TVal (PNeg (PDiv (PSub (PExp (N 4) (N 26)) (N 4)) (N 3))) (-1501199875790164));
(429, TRep (PDiv (PSub (PExp (N 4) (N 26)) (N 4)) (N 3)) "((-4 + (2 ** 52)) // 3)");
(429, TMod (PDiv (PSub (PExp (N 4) (N 26)) (N 4)) (N 3)) 2 0);
(429, TVal (PDiv (PSub (PExp (N 4) (N 27)) (N 4)) (N 3)) 6004799503160660);
(429, TVal (PNeg (PDiv (PSub (PExp (N 4) (N 27)) (N 4)) (N 3))) (-6004799503160660));
(429, TRep (PDiv (PSub (PExp (N 4) (N 27)) (N 4)) (N 3)) "((-4 + (2 ** 54)) // 3)");
(429, TMod (PDiv (PSub (PExp (N 4) (N 27)) (N 4)) (N 3)) 2 0);
(429, TVal (PDiv (PSub (PExp (N 4) (N 28)) (N 4)) (N 3)) 24019198012642644);
(429, TVal (PNeg (PDiv (PSub (PExp (N 4) (N 28)) (N 4)) (N 3))) (-24019198012642644));
(429, TRep (PDiv (PSub (PExp (N 4) (N 28)) (N 4)) (N 3)) "((-4 + (2 ** 56)) // 3)");
(429, TMod (PDiv (PSub (PExp (N 4) (N 28)) (N 4)) (N 3)) 2 0);
(429, TVal (PDiv (PSub (PExp (N 4) (N 29)) (N 4)) (N 3)) 96076792050570580);
(429, TVal (PNeg (PDiv (PSub (PExp (N 4) (N 29)) (N 4)) (N 3))) (-96076792050570580));
(429, TRep (PDiv (PSub (PExp (N 4) (N 29)) (N 4)) (N 3)) "((-4 + (2 ** 58)) // 3)");
(429, TMod (PDiv (PSub (PExp (N 4) (N 29)) (N 4)) (N 3)) 2 0);
(429, TVal (PDiv (PSub (PExp (N 4) (N 30)) (N 4)) (N 3)) 384307168202282324);
(429, TVal (PNeg (PDiv (PSub (PExp (N 4) (N 30)) (N 4)) (N 3))) (-384307168202282324));
(429, TRep (PDiv (PSub (PExp (N 4) (N 30)) (N 4)) (N 3)) "((-4 + (2 ** 60)) // 3)");
(429, TMod (PDiv (PSub (PExp (N 4) (N 30)) (N 4)) (N 3)) 2 0);
(429, TVal (PDiv (PSub (PExp (N 4) (N 31)) (N 4)) (N 3)) 1537228672809129300);
(429, TVal (PNeg (PDiv (PSub (PExp (N 4) (N 31)) (N 4)) (N 3))) (-1537228672809129300));
(429, TRep (PDiv (PSub (PExp (N 4) (N 31)) (N 4)) (N 3)) "((-4 + (2 ** 62)) // 3)");
(429, TMod (PDiv (PSub (PExp (N 4) (N 31)) (N 4)) (N 3)) 2 0);
(429, TVal (PDiv (PSub (PExp (N 4) (N 32)) (N 4)) (N 3)) 6148914691236517204);
(429, TVal (PNeg (PDiv (PSub (PExp (N 4) (N 32)) (N 4)) (N 3))) (-6148914691236517204));
(429, TRep (PDiv (PSub (PExp (N 4) (N 32)) (N 4)) (N 3)) "((-4 + (2 ** 64)) // 3)");
(429, TMod (PDiv (PSub (PExp (N 4) (N 32)) (N 4)) (N 3)) 2 0);
(429, TVal (PDiv (PSub (PExp (N 4) (N 33)) (N 4)) (N 3)) 24595658764946068820);
(429, TVal (PNeg (PDiv (PSub (PExp (N 4) (N 33)) (N 4)) (N 3))) (-24595658764946068820));
(429, TRep (PDiv (PSub (PExp (N 4) (N 33)) (N 4)) (N 3)) "((-4 + (2 ** 66)) // 3)");
(429, TMod (PDiv (PSub (PExp (N 4) (N 33)) (N 4)) (N 3)) 2 0);
(429, TVal (PDiv (PSub (PExp (N 4) (N 34)) (N 4)) (N 3)) 98382635059784275284);
(429, TVal (PNeg (PDiv (PSub (PExp (N 4) (N 34)) (N 4)) (N 3))) (-98382635059784275284));
(429, TRep (PDiv (PSub (PExp (N 4) (N 34)) (N 4)) (N 3)) "((-4 + (2 ** 68)) // 3)");
(429, TMod (PDiv (PSub (PExp (N 4) (N 34)) (N 4)) (N 3)) 2 0);
(429, TVal (PDiv (PSub (PExp (N 4) (N 35)) (N 4)) (N 3)) 393530540239137101140);
(429, TVal (PNeg (PDiv (PSub (PExp (N 4) (N 35)) (N 4)) (N 3))) (-393530540239137101140));
(429, TRep (PDiv (PSub (PExp (N 4) (N 35)) (N 4)) (N 3)) "((-4 + (2 ** 70)) // 3)");
(429, TMod (PDiv (PSub (PExp (N 4) (N 35)) (N 4)) (N 3)) 2 0);
(429, TVal (PDiv (PSub (PExp (N 4) (N 36)) (N 4)) (N 3)) 1574122160956548404564);
(429, TVal (PNeg (PDiv (PSub (PExp (N 4) (N 36)) (N 4)) (N 3))) (-1574122160956548404564));
(429, TRep (PDiv (PSub (PExp (N 4) (N 36)) (N 4)) (N 3)) "((-4 + (2 ** 72)) // 3)");
(429, TMod (PDiv (PSub (PExp (N 4) (N 36)) (N 4)) (N 3)) 2 0);
(429, TVal (PDiv (PSub (PExp (N 4) (N 37)) (N 4)) (N 3)) 6296488643826193618260);
(429, TVal (PNeg (PDiv (PSub (PExp (N 4) (N 37)) (N 4)) (N 3))) (-6296488643826193618260));
(429, TRep (PDiv (PSub (PExp (N 4) (N 37)) (N 4)) (N 3)) "((-4 + (2 ** 74)) // 3)");
(429, TMod (PDiv (PSub (PExp (N 4) (N 37)) (N 4)) (N 3)) 2 0);
(429, TVal (PDiv (PSub (PExp (N 4) (N 38)) (N 4)) (N 3)) 25185954575304774473044);
(429, TVal (PNeg (PDiv (PSub (PExp (N 4) (N 38)) (N 4)) (N 3))) (-25185954575304774473044));
(429, TRep (PDiv (PSub (PExp (N 4) (N 38)) (N 4)) (N 3)) "((-4 + (2 ** 76)) // 3)");
(429, TMod (PDiv (PSub (PExp (N 4) (N 38)) (N 4)) (N 3)) 2 0);
(429, TVal (PDiv (PSub (PExp (N 4) (N 39)) (N 4)) (N 3)) 100743818301219097892180);
(429, TVal (PNeg (PDiv (PSub (PExp (N 4) (N 39)) (N 4)) (N 3))) (-100743818301219097892180));
(429, TRep (PDiv (PSub (PExp (N 4) (N 39)) (N 4)) (N 3)) "((-4 + (2 ** 78)) // 3)");
(429, TMod (PDiv (PSub (PExp (N 4) (N 39)) (N 4)) (N 3)) 2 0);
(429, TVal (PDiv (PSub (PExp (N 4) (N 40)) (N 4)) (N 3)) 402975273204876391568724);
(429, TVal (PNeg (PDiv (PSub (PExp (N 4) (N 40)) (N 4)) (N 3))) (-402975273204876391568724));
(429, TRep (PDiv (PSub (PExp (N 4) (N 40)) (N 4)) (N 3)) "((-4 + (2 ** 80)) // 3)");
(429, TMod (PDiv (PSub (PExp (N 4) (N 40)) (N 4)) (N 3)) 2 0);
(429, TVal (PDiv (PSub (PExp (N 4) (N 41)) (N 4)) (N 3)) 1611901092819505566274900);
(429, TVal (PNeg (PDiv (PSub (PExp (N 4) (N 41)) (N 4)) (N 3))) (-1611901092819505566274900));
(429, TRep (PDiv (PSub (PExp (N 4) (N 41)) (N 4)) (N 3)) "((-4 + (2 ** 82)) // 3)");
(429, TMod (PDiv (PSub (PExp (N 4) (N 41)) (N 4)) (N 3)) 2 0);
(429, TVal (PDiv (PSub (PExp (N 4) (N 42)) (N 4)) (N 3)) 6447604371278022265099604);
(429, TVal (PNeg (PDiv (PSub (PExp (N 4) (N 42)) (N 4)) (N 3))) (-6447604371278022265099604));
(429, TRep (PDiv (PSub (PExp (N 4) (N 42)) (N 4)) (N 3)) "((-4 + (2 ** 84)) // 3)");
(429, TMod (PDiv (PSub (PExp (N 4) (N 42)) (N 4)) (N 3)) 2 0);
(429, TVal (PDiv (PSub (PExp (N 4) (N 43)) (N 4)) (N 3)) 25790417485112089060398420);
(429, TVal (PNeg (PDiv (PSub (PExp (N 4) (N 43)) (N 4)) (N 3))) (-25790417485112089060398420));
(429, TRep (PDiv (PSub (PExp (N 4) (N 43)) (N 4)) (N 3)) "((-4 + (2 ** 86)) // 3)");
(429, TMod (PDiv (PSub (PExp (N 4) (N 43)) (N 4)) (N 3)) 2 0);
(429, TVal (PDiv (PSub (PExp (N 4) (N 44)) (N 4)) (N 3)) 103161669940448356241593684);
(429, TVal (PNeg (PDiv (PSub (PExp (N 4) (N 44)) (N 4)) (N 3))) (-103161669940448356241593684));
(429, TRep (PDiv (PSub (PExp (N 4) (N 44)) (N 4)) (N 3)) "((-4 + (2 ** 88)) // 3)");
(429, TMod (PDiv (PSub (PExp (N 4) (N 44)) (N 4)) (N 3)) 2 0);
(429, TVal (PDiv (PSub (PExp (N 4) (N 45)) (N 4)) (N 3)) 412646679761793424966374740);
(429, TVal (PNeg (PDiv (PSub (PExp (N 4) (N 45)) (N 4)) (N 3))) (-412646679761793424966374740));
(429, TRep (PDiv (PSub (PExp (N 4) (N 45)) (N 4)) (N 3)) "((-4 + (2 ** 90)) // 3)");
(429, TMod (PDiv (PSub (PExp (N 4) (N 45)) (N 4)) (N 3)) 2 0);
(429, TVal (PDiv (PSub (PExp (N 4) (N 46)) (N 4)) (N 3)) 1650586719047173699865498964);
(429, TVal (PNeg (PDiv (PSub (PExp (N 4) (N 46)) (N 4)) (N 3))) (-1650586719047173699865498964));
(429, TRep (PDiv (PSub (PExp (N 4) (N 46)) (N 4)) (N 3)) "((-4 + (2 ** 92)) // 3)");
(429, TMod (PDiv (PSub (PExp (N 4) (N 46)) (N 4)) (N 3)) 2 0);
(429, TVal (PDiv (PSub (PExp (N 4) (N 47)) (N 4)) (N 3)) 6602346876188694799461995860);
(429, TVal (PNeg (PDiv (PSub (PExp (N 4) (N 47)) (N 4)) (N 3))) (-6602346876188694799461995860));
(429, TRep (PDiv (PSub (PExp (N 4) (N 47)) (N 4)) (N 3)) "((-4 + (2 ** 94)) // 3)");
(429, TMod (PDiv (PSub (PExp (N 4) (N 47)) (N 4)) (N 3)) 2 0);
(429, TVal (PDiv (PSub (PExp (N 4) (N 48)) (N 4)) (N 3)) 26409387504754779197847983444);
(429, TVal (PNeg (PDiv (PSub (PExp (N 4) (N 48)) (N 4)) (N 3))) (-26409387504754779197847983444));
(429, TRep (PDiv (PSub (PExp (N 4) (N 48)) (N 4)) (N 3)) "((-4 + (2 ** 96)) // 3)");
(429, TMod (PDiv (PSub (PExp (N 4) (N 48)) (N 4)) (N 3)) 2 0);
(429, TVal (PDiv (PSub (PExp (N 4) (N 49)) (N 4)) (N 3)) 105637550019019116791391933780);
(429, TVal (PNeg (PDiv (PSub (PExp (N 4) (N 49)) (N 4)) (N 3))) (-105637550019019116791391933780));
(429, TRep (PDiv (PSub (PExp (N 4) (N 49)) (N 4)) (N 3)) "((-4 + (2 ** 98)) // 3)");
(429, TMod (PDiv (PSub (PExp (N 4) (N 49)) (N 4)) (N 3)) 2 0);
(429, TVal (PDiv (PSub (PExp (N 4) (N 50)) (N 4)) (N 3)) 422550200076076467165567735124);
(429, TVal (PNeg (PDiv (PSub (PExp (N 4) (N 50)) (N 4)) (N 3))) (-422550200076076467165567735124));
(429, TRep (PDiv (PSub (PExp (N 4) (N 50)) (N 4)) (N 3)) "((-4 + (2 ** 100)) // 3)");
(429, TMod (PDiv (PSub (PExp (N 4) (N 50)) (N 4)) (N 3)) 2 0);
(429, TVal (PDiv (PSub (PExp (N 4) (N 51)) (N 4)) (N 3)) 1690200800304305868662270940500);
(429, TVal (PNeg (PDiv (PSub (PExp (N 4) (N 51)) (N 4)) (N 3))) (-1690200800304305868662270940500));
(429, TRep (PDiv (PSub (PExp (N 4) (N 51)) (N 4)) (N 3)) "((-4 + (2 ** 102)) // 3)");
(429, TMod (PDiv (PSub (PExp (N 4) (N 51)) (N 4)) (N 3)) 2 0);
(429, TVal (PDiv (PSub (PExp (N 4) (N 52)) (N 4)) (N 3)) 6760803201217223474649083762004);
(429, TVal (PNeg (PDiv (PSub (PExp (N 4) (N 52)) (N 4)) (N 3))) (-6760803201217223474649083762004));
(429, TRep (PDiv (PSub (PExp (N 4) (N 52)) (N 4)) (N 3)) "((-4 + (2 ** 104)) // 3)");
(429, TMod (PDiv (PSub (PExp (N 4) (N 52)) (N 4)) (N 3)) 2 0);
(429, TVal (PDiv (PSub (PExp (N 4) (N 53)) (N 4)) (N 3)) 27043212804868893898596335048020);
(429, TVal (PNeg (PDiv (PSub (PExp (N 4) (N 53)) (N 4)) (N 3))) (-27043212804868893898596335048020));
(429, TRep (PDiv (PSub (PExp (N 4) (N 53)) (N 4)) (N 3)) "((-4 + (2 ** 106)) // 3)");
(429, TMod (PDiv (PSub (PExp (N 4) (N 53)) (N 4)) (N 3)) 2 0);
(429, TVal (PDiv (PSub (PExp (N 4) (N 54)) (N 4)) (N 3)) 108172851219475575594385340192084);
(429, TVal (PNeg (PDiv (PSub (PExp (N 4) (N 54)) (N 4)) (N 3))) (-108172851219475575594385340192084));
(429, TRep (PDiv (PSub (PExp (N 4) (N 54)) (N 4)) (N 3)) "((-4 + (2 ** 108)) // 3)");
(429, TMod (PDiv (PSub (PExp (N 4) (N 54)) (N 4)) (N 3)) 2 0);
(429, TVal (PDiv (PSub (PExp (N 4) (N 55)) (N 4)) (N 3)) 432691404877902302377541360768340);
(429, TVal (PNeg (PDiv (PSub (PExp (N 4) (N 55)) (N 4)) (N 3))) (-432691404877902302377541360768340));
(429, TRep (PDiv (PSub (PExp (N 4) (N 55)) (N 4)) (N 3)) "((-4 + (2 ** 110)) // 3)");
(429, TMod (PDiv (PSub (PExp (N 4) (N 55)) (N 4)) (N 3)) 2 0);
(429, TVal (PDiv (PSub (PExp (N 4) (N 56)) (N 4)) (N 3)) 1730765619511609209510165443073364);
(429, TVal (PNeg (PDiv (PSub (PExp (N 4) (N 56)) (N 4)) (N 3))) (-1730765619511609209510165443073364));
(429, TRep (PDiv (PSub (PExp (N 4) (N 56)) (N 4)) (N 3)) "((-4 + (2 ** 112)) // 3)");
(429, TMod (PDiv (PSub (PExp (N 4) (N 56)) (N 4)) (N 3)) 2 0);
(429, TVal (PDiv (PSub (PExp (N 4) (N 57)) (N 4)) (N 3)) 6923062478046436838040661772293460);
(429, TVal (PNeg (PDiv (PSub (PExp (N 4) (N 57)) (N 4)) (N 3))) (-6923062478046436838040661772293460));
(429, TRep (PDiv (PSub (PExp (N 4) (N 57)) (N 4)) (N 3)) "((-4 + (2 ** 114)) // 3)");
(429, TMod (PDiv (PSub (PExp (N 4) (N 57)) (N 4)) (N 3)) 2 0);
(429, TVal (PDiv (PSub (PExp (N 4) (N 58)) (N 4)) (N 3)) 27692249912185747352162647089173844);
(429, TVal (PNeg (PDiv (PSub (PExp (N 4) (N 58)) (N 4)) (N 3))) (-27692249912185747352162647089173844));
(429, TRep (PDiv (PSub (PExp (N 4) (N 58)) (N 4)) (N 3)) "((-4 + (2 ** 116)) // 3)");
(429, TMod (PDiv (PSub (PExp (N 4) (N 58)) (N 4)) (N 3)) 2 0);
(429, TVal (PDiv (PSub (PExp (N 4) (N 59)) (N 4)) (N 3)) 110768999648742989408650588356695380);
(429, TVal (PNeg (PDiv (PSub (PExp (N 4) (N 59)) (N 4)) (N 3))) (-110768999648742989408650588356695380));
(429, TRep (PDiv (PSub (PExp (N 4) (N 59)) (N 4)) (N 3)) "((-4 + (2 ** 118)) // 3)");
(429, TMod (PDiv (PSub (PExp (N 4) (N 59)) (N 4)) (N 3)) 2 0);
(429, TVal (PDiv (PSub (PExp (N 4) (N 100)) (N 4)) (N 3)) 535646014752996758513987364113720867507400997927597611767124);
(429, TVal (PNeg (PDiv (PSub (PExp (N 4) (N 100)) (N 4)) (N 3))) (-535646014752996758513987364113720867507400997927597611767124));
(429, TRep (PDiv (PSub (PExp (N 4) (N 100)) (N 4)) (N 3)) "((-4 + (2 ** 200)) // 3)");
(429, TMod (PDiv (PSub (PExp (N 4) (N 100)) (N 4)) (N 3)) 2 0);
(429, TVal (PDiv (PSub (PExp (N 4) (N 150)) (N 4)) (N 3)) 679011992111495362089481896136459387017156131221978750212046816451460433254445568727799124);
(429, TVal (PNeg (PDiv (PSub (PExp (N 4) (N 150)) (N 4)) (N 3))) (-679011992111495362089481896136459387017156131221978750212046816451460433254445568727799124));
(429, TRep (PDiv (PSub (PExp (N 4) (N 150)) (N 4)) (N 3)) "((-4 + (2 ** 300)) // 3)");
(429, TMod (PDiv (PSub (PExp (N 4) (N 150)) (N 4)) (N 3)) 2 0);
(429, TVal (PDiv (PSub (PExp (N 4) (N 200)) (N 4)) (N 3)) 860749959362302863218639724001003958109901930943074504276886452180215874005613731543215117760045943811967723990915831124);
(429, TVal (PNeg (PDiv (PSub (PExp (N 4) (N 200)) (N 4)) (N 3))) (-860749959362302863218639724001003958109901930943074504276886452180215874005613731543215117760045943811967723990915831124));
(429, TRep (PDiv (PSub (PExp (N 4) (N 200)) (N 4)) (N 3)) "((-4 + (2 ** 400)) // 3)");
(429, TMod (PDiv (PSub (PExp (N 4) (N 200)) (N 4)) (N 3)) 2 0);
(429, TVal (PDiv (PSub (PExp (N 4) (N 250)) (N 4)) (N 3)) 1091130202632047290004396565609199717405547348681021596494430456032044598801558184961090030775301385716962228042520023669739085515295131017776175863124);
(429, TVal (PNeg (PDiv (PSub (PExp (N 4) (N 250)) (N 4)) (N 3))) (-1091130202632047290004396565609199717405547348681021596494430456032044598801558184961090030775301385716962228042520023669739085515295131017776175863124));
(429, TRep (PDiv (PSub (PExp (N 4) (N 250)) (N 4)) (N 3)) "((-4 + (2 ** 500)) // 3)");
(429, TMod (PDiv (PSub (PExp (N 4) (N 250)) (N 4)) (N 3)) 2 0);
(429, TVal (PDiv (PSub (PExp (N 4) (N 300)) (N 4)) (N 3)) 1383171856293664319504135954563720383670815410747478966665219109896884270470969382133235682982367931429399295537100263060798383691803925102628958278037987895687060601133836507895124);
(429, TVal (PNeg (PDiv (PSub (PExp (N 4) (N 300)) (N 4)) (N 3))) (-1383171856293664319504135954563720383670815410747478966665219109896884270470969382133235682982367931429399295537100263060798383691803925102628958278037987895687060601133836507895124));
(429, TRep (PDiv (PSub (PExp (N 4) (N 300)) (N 4)) (N 3)) "((-4 + (2 ** 600)) // 3)");
(429, TMod (PDiv (PSub (PExp (N 4) (N 300)) (N 4)) (N 3)) 2 0);
(429, TVal (PDiv (PSub (PExp (N 4) (N 350)) (N 4)) (N 3)) 1753378633849457835746996627626709555183446600941057953166093634356244051432360274037888845425862817075660989618726072571006477416727934621042604923550626949985074557042814866063887919294774239090431083911927124);
(429, TVal (PNeg (PDiv (PSub (PExp (N 4) (N 350)) (N 4)) (N 3))) (-1753378633849457835746996627626709555183446600941057953166093634356244051432360274037888845425862817075660989618726072571006477416727934621042604923550626949985074557042814866063887919294774239090431083911927124));
(429, TRep (PDiv (PSub (PExp (N 4) (N 350)) (N 4)) (N 3)) "((-4 + (2 ** 700)) // 3)");
(429, TMod (PDiv (PSub (PExp (N 4) (N 350)) (N 4)) (N 3)) 2 0);
(429, TVal (PDiv (PSub (PExp (N 4) (N 400)) (N 4)) (N 3)) 2222671477626618091359950596907085932381586107438636053465419270588012412605877357173810733623851430247643303531144413481962933884706455026787785350776943348698385859838004852821026095303938008242988338711962200660563582679158820430387959124);
(429, TVal (PNeg (PDiv (PSub (PExp (N 4) (N 400)) (N 4)) (N 3))) (-2222671477626618091359950596907085932381586107438636053465419270588012412605877357173810733623851430247643303531144413481962933884706455026787785350776943348698385859838004852821026095303938008242988338711962200660563582679158820430387959124));
(429, TRep (PDiv (PSub (PExp (N 4) (N 400)) (N 4)) (N 3)) "((-4 + (2 ** 800)) // 3)");
(429, TMod (PDiv (PSub (PExp (N 4) (N 400)) (N 4)) (N 3)) 2 0);
(429, TVal (PDiv (PSub (PExp (N 4) (N 450)) (N 4)) (N 3)) 2817570832723547980545812186221421901433852405525981451349123781475594146969199250530225364734171668771596773297371352954039186984014322865336207885135677743511395647994693782233234760940941018949462575510459671488789484228008329273804783460090861207944205764787935991124);
(429, TVal (PNeg (PDiv (PSub (PExp (N 4) (N 450)) (N 4)) (N 3))) (-2817570832723547980545812186221421901433852405525981451349123781475594146969199250530225364734171668771596773297371352954039186984014322865336207885135677743511395647994693782233234760940941018949462575510459671488789484228008329273804783460090861207944205764787935991124));
(429, TRep (PDiv (PSub (PExp (N 4) (N 450)) (N 4)) (N 3)) "((-4 + (2 ** 900)) // 3)");
(429, TMod (PDiv (PSub (PExp (N 4) (N 450)) (N 4)) (N 3)) 2 0);
(429, TVal (PDiv (PSub (PExp (N 4) (N 500)) (N 4)) (N 3)) 3571695357287557736494750163533339368538016039018445358145834627901170170416453741643994596052319527091982243058510489417290484285641046811994859191566191601311522591608076995140358201687457047292651394051015491661193980422466255853055181315359020971523732159228847389220143277217541462279068556023124);
(429, TVal (PNeg (PDiv (PSub (PExp (N 4) (N 500)) (N 4)) (N 3))) (-3571695357287557736494750163533339368538016039018445358145834627901170170416453741643994596052319527091982243058510489417290484285641046811994859191566191601311522591608076995140358201687457047292651394051015491661193980422466255853055181315359020971523732159228847389220143277217541462279068556023124));
(429, TRep (PDiv (PSub (PExp (N 4) (N 500)) (N 4)) (N 3)) "((-4 + (2 ** 1000)) // 3)");
(429, TMod (PDiv (PSub (PExp (N 4) (N 500)) (N 4)) (N 3)) 2 0);
(429, TVal (PDiv (PSub (PExp (N 4) (N 550)) (N 4)) (N 3)) 4527661763497952830924504761197555928678312823105815165828398899092710309180806162401797361069186864099526087651282461158346241847744976657051849447600209573961921166468796777260954714721560243588945720175407725504266145257376652184451762010734360126925253244106732995031628001356372041028049291812394552822488382982930184248055124);
(429, TVal (PNeg (PDiv (PSub (PExp (N 4) (N 550)) (N 4)) (N 3))) (-4527661763497952830924504761197555928678312823105815165828398899092710309180806162401797361069186864099526087651282461158346241847744976657051849447600209573961921166468796777260954714721560243588945720175407725504266145257376652184451762010734360126925253244106732995031628001356372041028049291812394552822488382982930184248055124));
(429, TRep (PDiv (PSub (PExp (N 4) (N 550)) (N 4)) (N 3)) "((-4 + (2 ** 1100)) // 3)");
(429, TMod (PDiv (PSub (PExp (N 4) (N 550)) (N 4)) (N 3)) 2 0);
(429, TVal (PDiv (PSub (PExp (N 4) (N 600)) (N 4)) (N 3)) 5739493152128583539355792565350878494526641581816229973911078938800246897080581873132494845745348724428790306343987195929528309096938887008330536627576239114886501157218663626961559965506685041302155688139685508743781895089413523069964191255345988861578394591913144659571526195927567126932413590825882624851995570915423787630742505401772971478637837047012087124);
(429, TVal (PNeg (PDiv (PSub (PExp (N 4) (N 600)) (N 4)) (N 3))) (-5739493152128583539355792565350878494526641581816229973911078938800246897080581873132494845745348724428790306343987195929528309096938887008330536627576239114886501157218663626961559965506685041302155688139685508743781895089413523069964191255345988861578394591913144659571526195927567126932413590825882624851995570915423787630742505401772971478637837047012087124));
(429, TRep (PDiv (PSub (PExp (N 4) (N 600)) (N 4)) (N 3)) "((-4 + (2 ** 1200)) // 3)");
(429, TMod (PDiv (PSub (PExp (N 4) (N 600)) (N 4)) (N 3)) 2 0);
(429, TVal (PDiv (PSub (PExp (N 4) (N 650)) (N 4)) (N 3)) 7275671939301611287819227201004082238492691484126621505294862367957875816520035631898987989902609042963551390849149441350571876241601350359678473805969801530869288016291540742192974336036496422013822598240142927654075272805778529184269381234459155482442359643176023851296999139375058765945660912883234715710394272109920183317394225794022433465392554045856327943735892655861104670568848119124);
(429, TVal (PNeg (PDiv (PSub (PExp (N 4) (N 650)) (N 4)) (N 3))) (-7275671939301611287819227201004082238492691484126621505294862367957875816520035631898987989902609042963551390849149441350571876241601350359678473805969801530869288016291540742192974336036496422013822598240142927654075272805778529184269381234459155482442359643176023851296999139375058765945660912883234715710394272109920183317394225794022433465392554045856327943735892655861104670568848119124));
(429, TRep (PDiv (PSub (PExp (N 4) (N 650)) (N 4)) (N 3)) "((-4 + (2 ** 1300)) // 3)");
(429, TMod (PDiv (PSub (PExp (N 4) (N 650)) (N 4)) (N 3)) 2 0);
(429, TVal (PDiv (PSub (PExp (N 4) (N 700)) (N 4)) (N 3)) 9223009900919373382163980728958294709944065198895864640980384442881538345687072965824319374969453768409799177388666431289295181790992869068392210060484225644640357947076816714661392987186017065546606117744167191778077480074788419471087074849689549165577964497619564612978673122298018708293209647602062668521141294653589137836595810238414804890960672869855939914131659986096482715783538580227199174003742860653661756151124);
(429, TVal (PNeg (PDiv (PSub (PExp (N 4) (N 700)) (N 4)) (N 3))) (-9223009900919373382163980728958294709944065198895864640980384442881538345687072965824319374969453768409799177388666431289295181790992869068392210060484225644640357947076816714661392987186017065546606117744167191778077480074788419471087074849689549165577964497619564612978673122298018708293209647602062668521141294653589137836595810238414804890960672869855939914131659986096482715783538580227199174003742860653661756151124));
(429, TRep (PDiv (PSub (PExp (N 4) (N 700)) (N 4)) (N 3)) "((-4 + (2 ** 1400)) // 3)");
(429, TMod (PDiv (PSub (PExp (N 4) (N 700)) (N 4)) (N 3)) 2 0);
(429, TVal (PDiv (PSub (PExp (N 4) (N 750)) (N 4)) (N 3)) 11691554036811346249209195986760285997841338626776942941358599341596987950187774067885693628861656420551050135598479172466431516313823319918057012972668233615963318828443032421495600903861154315512227394780046209817118486088315447508461206463104986881555017517250480778503083057787043451932036569961860224771318070072552615810875586911001584425105730711224901187790927765680664409017554444556169984000058351118509686293478060846128905174561237736183124);
(429, TVal (PNeg (PDiv (PSub (PExp (N 4) (N 750)) (N 4)) (N 3))) (-11691554036811346249209195986760285997841338626776942941358599341596987950187774067885693628861656420551050135598479172466431516313823319918057012972668233615963318828443032421495600903861154315512227394780046209817118486088315447508461206463104986881555017517250480778503083057787043451932036569961860224771318070072552615810875586911001584425105730711224901187790927765680664409017554444556169984000058351118509686293478060846128905174561237736183124));
(429, TRep (PDiv (PSub (PExp (N 4) (N 750)) (N 4)) (N 3)) "((-4 + (2 ** 1500)) // 3)");
(429, TMod (PDiv (PSub (PExp (N 4) (N 750)) (N 4)) (N 3)) 2 0);
(429, TVal (PDiv (PSub (PExp (N 4) (N 800)) (N 4)) (N 3)) 14820805492364681540005604688505788105273078170712613106472741031251227689923050746328260858724656472495317840380349794581702352151761326438795005567204270039854195026206805325576901899448362346345310253758361275755135198688472724550895011929632704663875680776415616771343292387207495803959259859630699009896820510667305103788954156314049630735332627942755240430098740083067558246889938235272854921669986766796547281107312002805491258381503976415596082186512990319098720208788215124);
(429, TVal (PNeg (PDiv (PSub (PExp (N 4) (N 800)) (N 4)) (N 3))) (-14820805492364681540005604688505788105273078170712613106472741031251227689923050746328260858724656472495317840380349794581702352151761326438795005567204270039854195026206805325576901899448362346345310253758361275755135198688472724550895011929632704663875680776415616771343292387207495803959259859630699009896820510667305103788954156314049630735332627942755240430098740083067558246889938235272854921669986766796547281107312002805491258381503976415596082186512990319098720208788215124));
(429, TRep (PDiv (PSub (PExp (N 4) (N 800)) (N 4)) (N 3)) "((-4 + (2 ** 1600)) // 3)");
(429, TMod (PDiv (PSub (PExp (N 4) (N 800)) (N 4)) (N 3)) 2 0);
(429, TVal (PDiv (PSub (PExp (N 4) (N 850)) (N 4)) (N 3)) 18787602978261927540218471722490175304676988137036104980134141139536429896356118451990459863965915057801003359421249176618882133983284179881656616144900062167240864377536367464968975457754039025187776768943788048225811262392729988059871196019501851979750213872176298776539333860208029201596902356667548787922603458674860153982463458425386286119176654182112802284878700935241210430869770466565625105519047981797034103844055229502230753878015732441568917650272975938490795330897742917435395872998461009486912247124);
(429, TVal (PNeg (PDiv (PSub (PExp (N 4) (N 850)) (N 4)) (N 3))) (-18787602978261927540218471722490175304676988137036104980134141139536429896356118451990459863965915057801003359421249176618882133983284179881656616144900062167240864377536367464968975457754039025187776768943788048225811262392729988059871196019501851979750213872176298776539333860208029201596902356667548787922603458674860153982463458425386286119176654182112802284878700935241210430869770466565625105519047981797034103844055229502230753878015732441568917650272975938490795330897742917435395872998461009486912247124));
(429, TRep (PDiv (PSub (PExp (N 4) (N 850)) (N 4)) (N 3)) "((-4 + (2 ** 1700)) // 3)");
(429, TMod (PDiv (PSub (PExp (N 4) (N 850)) (N 4)) (N 3)) 2 0);
(429, TVal (PDiv (PSub (PExp (N 4) (N 900)) (N 4)) (N 3)) 23816116192243402786800868174341552887969103816163008223231105662978531095774292888721160650058740012531159449035312474228833997298139929598696140712655342087507866050124239992045970440828148704871094968127992547725397852605965675674354473374950677996542268921503045976638262401791137705359084747551141092462075542386373389407874553379988372323190803947221987527662905621930883358431551750841752447721188680941498503102624275991071578961460498896485597478050026490037220603920458720356018554670779232818763679850647766428084856859984108279124);
(429, TVal (PNeg (PDiv (PSub (PExp (N 4) (N 900)) (N 4)) (N 3))) (-23816116192243402786800868174341552887969103816163008223231105662978531095774292888721160650058740012531159449035312474228833997298139929598696140712655342087507866050124239992045970440828148704871094968127992547725397852605965675674354473374950677996542268921503045976638262401791137705359084747551141092462075542386373389407874553379988372323190803947221987527662905621930883358431551750841752447721188680941498503102624275991071578961460498896485597478050026490037220603920458720356018554670779232818763679850647766428084856859984108279124));
(429, TRep (PDiv (PSub (PExp (N 4) (N 900)) (N 4)) (N 3)) "((-4 + (2 ** 1800)) // 3)");
(429, TMod (PDiv (PSub (PExp (N 4) (N 900)) (N 4)) (N 3)) 2 0);
(429, TVal (PDiv (PSub (PExp (N 4) (N 950)) (N 4)) (N 3)) 30190513986202602833261446538252820965669145785867410260137226209826522282503774603241534998677922889764451614503218300940538653230049997734754256719563589120542991189458274135064117080573322087878103044159975618387050949154573873422392459206408790260044544052381861708035614337493936876866405029103313440307709534140800322274861245164938656952454225459609775882755104877483587663474248300608139917460475541579113196932610129016687729778723085079084169709925586799946552003513409134955361683344949076972768802528654269058824830302608497843587820768544164641254612376311124);
(429, TVal (PNeg (PDiv (PSub (PExp (N 4) (N 950)) (N 4)) (N 3))) (-30190513986202602833261446538252820965669145785867410260137226209826522282503774603241534998677922889764451614503218300940538653230049997734754256719563589120542991189458274135064117080573322087878103044159975618387050949154573873422392459206408790260044544052381861708035614337493936876866405029103313440307709534140800322274861245164938656952454225459609775882755104877483587663474248300608139917460475541579113196932610129016687729778723085079084169709925586799946552003513409134955361683344949076972768802528654269058824830302608497843587820768544164641254612376311124));
(429, TRep (PDiv (PSub (PExp (N 4) (N 950)) (N 4)) (N 3)) "((-4 + (2 ** 1900)) // 3)");
(429, TMod (PDiv (PSub (PExp (N 4) (N 950)) (N 4)) (N 3)) 2 0);
(435, TMod (PDiv (PSub (PExp (N 4) (N 8188)) (N 4)) (N 3)) 2 0);
(441, TMod (PAdd (PAdd (PMul (N 2042) (PExp (N 4) (N 8188))) (N 7)) (PSub (PMul (N 18) (PAdd (N 1) (PDiv (PSub (PExp (N 4) (N 8188)) (N 4)) (N 3)))) (N 1))) 2 0);
(447, TVal (PDiv (PMul (N 3) (PExp (N 2) (N 3))) (N 4)) 6);
(447, TVal (PNeg (PDiv (PMul (N 3) (PExp (N 2) (N 3))) (N 4))) (-6));
(447, TRep (PDiv (PMul (N 3) (PExp (N 2) (N 3))) (N 4)) "6");
(447, TMod (PDiv (PMul (N 3) (PExp (N 2) (N 3))) (N 4)) 4 2);
(454, TVal (PExp (N 1) (N 8)) 1);
(454, TVal (PNeg (PExp (N 1) (N 8))) (-1));
(455, TVal (PExp (N 4) (N 5)) 1024);
(455, TVal (PNeg (PExp (N 4) (N 5))) (-1024));
(457, TVal (PExp (N 2) (N 3)) 8);
(457, TVal (PNeg (PExp (N 2) (N 3))) (-8));
(457, TRep (PExp (N 2) (N 3)) "(2 ** 3)");
(459, TVal (PSub (N 3) (PExp (N 2) (N 5))) (-29));
(459, TVal (PNeg (PSub (N 3) (PExp (N 2) (N 5)))) 29);
(459, TRep (PSub (N 3) (PExp (N 2) (N 5))) "(3 + -(2 ** 5))");
(464, TVal (PAdd (PNeg (N 54)) (PExp (N 3) (N 8))) 6507);
(464, TVal (PNeg (PAdd (PNeg (N 54)) (PExp (N 3) (N 8)))) (-6507));
(464, TRep (PAdd (PNeg (N 54)) (PExp (N 3) (N 8))) "(-54 + (3 ** 8))");
(469, TVal (PPow (PExp (N 2) (N 3)) (N 5)) 32768);
(469, TVal (PNeg (PPow (PExp (N 2) (N 3)) (N 5))) (-32768));
(469, TRep (PPow (PExp (N 2) (N 3)) (N 5)) "(2 ** 15)");
(474, TVal (PPow (N 2) (PExp (N 3) (N 4))) 2417851639229258349412352);
(474, TVal (PNeg (PPow (N 2) (PExp (N 3) (N 4)))) (-2417851639229258349412352));
(474, TRep (PPow (N 2) (PExp (N 3) (N 4))) "(2 ** (3 ** 4))");
(479, TVal (PAdd (N 76) (PMul (N 19) (PExp (N 2) (N 5)))) 684);
(479, TVal (PNeg (PAdd (N 76) (PMul (N 19) (PExp (N 2) (N 5))))) (-684));
(479, TRep (PAdd (N 76) (PMul (N 19) (PExp (N 2) (N 5)))) "(76 + (19 * (2 ** 5)))");
(484, TVal (PMul (N 19) (PAdd (N 4) (PExp (N 2) (N 5)))) 684);
(484, TVal (PNeg (PMul (N 19) (PAdd (N 4) (PExp (N 2) (N 5))))) (-684));
(484, TRep (PMul (N 19) (PAdd (N 4) (PExp (N 2) (N 5)))) "(76 + (19 * (2 ** 5)))");
(489, TVal (PMul (N 19) (PAdd (PExp (N 2) (N 2)) (PExp (N 2) (N 5)))) 684);
(489, TVal (PNeg (PMul (N 19) (PAdd (PExp (N 2) (N 2)) (PExp (N 2) (N 5))))) (-684));
(489, TRep (PMul (N 19) (PAdd (PExp (N 2) (N 2)) (PExp (N 2) (N 5)))) "(171 * (2 ** 2))");
(494, TVal (PAdd (PMul (N 19) (PExp (N 2) (N 2))) (PMul (N 19) (PExp (N 2) (N 5)))) 684);
(494, TVal (PNeg (PAdd (PMul (N 19) (PExp (N 2) (N 2))) (PMul (N 19) (PExp (N 2) (N 5))))) (-684));
(494, TRep (PAdd (PMul (N 19) (PExp (N 2) (N 2))) (PMul (N 19) (PExp (N 2) (N 5)))) "(171 * (2 ** 2))");
(499, TVal (PMul (N 19) (PMul (PExp (N 2) (N 2)) (PAdd (N 1) (PExp (N 2) (N 3))))) 684);
(499, TVal (PNeg (PMul (N 19) (PMul (PExp (N 2) (N 2)) (PAdd (N 1) (PExp (N 2) (N 3)))))) (-684));
(499, TRep (PMul (N 19) (PMul (PExp (N 2) (N 2)) (PAdd (N 1) (PExp (N 2) (N 3))))) "(171 * (2 ** 2))");
(504, TVal (PMul (PExp (N 2) (N 2)) (PMul (N 19) (PAdd (N 1) (PExp (N 2) (N 3))))) 684);
(504, TVal (PNeg (PMul (PExp (N 2) (N 2)) (PMul (N 19) (PAdd (N 1) (PExp (N 2) (N 3)))))) (-684));
(504, TRep (PMul (PExp (N 2) (N 2)) (PMul (N 19) (PAdd (N 1) (PExp (N 2) (N 3))))) "(171 * (2 ** 2))");
(509, TVal (PMul (PExp (N 2) (N 2)) (PAdd (N 19) (PMul (N 19) (PExp (N 2) (N 3))))) 684);
(509, TVal (PNeg (PMul (PExp (N 2) (N 2)) (PAdd (N 19) (PMul (N 19) (PExp (N 2) (N 3)))))) (-684));
(509, TRep (PMul (PExp (N 2) (N 2)) (PAdd (N 19) (PMul (N 19) (PExp (N 2) (N 3))))) "(171 * (2 ** 2))");
(519, TVal (PPow (N 2) (PExp (N 2) (N 5))) 4294967296);
(519, TVal (PNeg (PPow (N 2) (PExp (N 2) (N 5)))) (-4294967296));
(519, TRep (PPow (N 2) (PExp (N 2) (N 5))) "(2 ** (2 ** 5))");
(524, TVal (PMul (PExp (N 2) (N 5)) (PAdd (PNeg (N 1)) (PPow (N 2) (PAdd (PNeg (N 5)) (PExp (N 2) (N 5)))))) 4294967264);
(524, TVal (PNeg (PMul (PExp (N 2) (N 5)) (PAdd (PNeg (N 1)) (PPow (N 2) (PAdd (PNeg (N 5)) (PExp (N 2) (N 5))))))) (-4294967264));
(524, TRep (PMul (PExp (N 2) (N 5)) (PAdd (PNeg (N 1)) (PPow (N 2) (PAdd (PNeg (N 5)) (PExp (N 2) (N 5)))))) "((2 ** 5) * (-1 + (2 ** (-5 + (2 ** 5)))))");
(540, TMod (PExp (N 4) (N 5)) 3 1);
(540, TMod (PExp (N 5) (N 3)) 13 8);
(540, TMod (PExp (N 4) (N 13)) 497 445);
(540, TMod (PExp (N 2) (N 31)) 4 0);
(540, TMod (PExp (N 2) (N 50)) 13 4);
(540, TMod (PExp (N 2) (N 90)) 13 12);
(549, TVal (PMul (N 3) (PExp (N 2) (N 3))) 24);
(549, TVal (PNeg (PMul (N 3) (PExp (N 2) (N 3)))) (-24));
(549, TRep (PMul (N 3) (PExp (N 2) (N 3))) "(3 * (2 ** 3))");
(549, TMod (PMul (N 3) (PExp (N 2) (N 3))) 2 0);
(555, TVal (PMul (N 2) (PExp (N 3) (N 2))) 18);
(555, TVal (PNeg (PMul (N 2) (PExp (N 3) (N 2)))) (-18));
(555, TRep (PMul (N 2) (PExp (N 3) (N 2))) "(2 * (3 ** 2))");
(555, TMod (PMul (N 2) (PExp (N 3) (N 2))) 2 0);
(561, TVal (PSub (PExp (N 3) (N 11)) (N 1)) 177146);
(561, TVal (PNeg (PSub (PExp (N 3) (N 11)) (N 1))) (-177146));
(561, TRep (PSub (PExp (N 3) (N 11)) (N 1)) "(-1 + (3 ** 11))");
(561, TMod (PSub (PExp (N 3) (N 11)) (N 1)) 2 0);
(567, TMod (PExp (N 6) (N 19)) 2 0);
(572, TMod (PAdd (PNeg (N 3)) (PPow (N 3) (PDiv (PAdd (PNeg (N 3)) (PExp (N 3) (N 5))) (N 8)))) 2 0);
(577, TMod (PPow (N 2) (PExp (N 3) (N 11))) 4 0);
(582, TMod (PPow (N 6) (PDiv (PAdd (N 1) (PMul (N 69) (PExp (N 6) (N 13)))) (N 5))) 10 6);
(589, TMod (PExp (N 2) (N 3)) 6 2);
(594, TMod (PAdd (PNeg (N 4)) (PExp (N 2) (N 4))) 6 0);
(599, TMod (PMul (N 13) (PExp (N 2) (N 3))) 6 2);
(604, TMod (PAdd (PNeg (N 2)) (PMul (N 13) (PExp (N 2) (N 3)))) 6 0);
(609, TMod (PDiv (PAdd (PNeg (N 4)) (PExp (N 2) (N 4))) (N 3)) 2 0);
(614, TMod (PDiv (PAdd (PNeg (N 2)) (PMul (N 13) (PExp (N 2) (N 3)))) (N 3)) 2 0);
(619, TMod (PPow (N 2) (PDiv (PAdd (PNeg (N 2)) (PMul (N 13) (PExp (N 2) (N 3)))) (N 3))) 12 4);
(624, TMod (PPow (N 2) (PDiv (PAdd (PNeg (N 5)) (PMul (N 13) (PExp (N 2) (N 3)))) (N 3))) 6 2);
(629, TMod (PAdd (PNeg (N 55)) (PMul (N 61) (PExp (N 2) (N 8)))) 162 9);
(634, TMod (PPow (N 2) (PDiv (PAdd (PNeg (N 55)) (PMul (N 61) (PExp (N 2) (N 8)))) (N 9))) 54 2);
(639, TMod (PPow (N 2) (PDiv (PAdd (PNeg (N 11)) (PMul (N 19) (PExp (N 2) (N 7)))) (N 9))) 162 122);
(644, TMod (PPow (N 2) (PDiv (PAdd (PNeg (N 55)) (PMul (N 61) (PExp (N 2) (N 8)))) (N 9))) 486 326);
(649, TMod (PPow (N 2) (PDiv (PAdd (N 62) (PMul (N 49) (PExp (N 2) (N 16)))) (N 27))) 1458 1126);
(654, TMod (PPow (N 3) (PDiv (PAdd (N 7) (PExp (N 3) (N 2))) (N 8))) 6 3);
(659, TMod (PExp (N 7) (N 741)) 12 7);
(664, TMod (PExp (N 2) (N 37)) 20 12);
(669, TMod (PDiv (PAdd (N 13) (PMul (N 7) (PExp (N 2) (N 6373)))) (N 9)) 6 3);
(681, TMod (PExp (N 2) (N 3)) 1 0);
(681, TMod (PDiv (PAdd (N 1) (PExp (N 2) (N 3))) (N 3)) 1 0);
(689, TEq (PAdd (PAdd (N 6584) (PMul (N 2266788192) (PExp (N 64) (N 11524)))) (PMul (N 6496) (PDiv (PAdd (PNeg (N 64)) (PExp (N 64) (N 11524))) (N 63)))) (PAdd (PAdd (N 6584) (PMul (N 2266788192) (PExp (N 64) (N 11524)))) (PMul (N 6496) (PDiv (PAdd (PNeg (N 64)) (PExp (N 64) (N 11524))) (N 63)))) true);
(690, TEq (PAdd (PAdd (N 6581) (PMul (N 2266788192) (PExp (N 64) (N 11524)))) (PMul (N 6496) (PDiv (PAdd (PNeg (N 64)) (PExp (N 64) (N 11524))) (N 63)))) (PAdd (PAdd (N 6581) (PMul (N 2266788192) (PExp (N 64) (N 11524)))) (PMul (N 6496) (PDiv (PAdd (PNeg (N 64)) (PExp (N 64) (N 11524))) (N 63)))) true);
(691, TEq (PAdd (PAdd (N 6578) (PMul (N 2266788192) (PExp (N 64) (N 11524)))) (PMul (N 6496) (PDiv (PAdd (PNeg (N 64)) (PExp (N 64) (N 11524))) (N 63)))) (PAdd (PAdd (N 6578) (PMul (N 2266788192) (PExp (N 64) (N 11524)))) (PMul (N 6496) (PDiv (PAdd (PNeg (N 64)) (PExp (N 64) (N 11524))) (N 63)))) true);
(692, TEq (PAdd (PAdd (N 6578) (PMul (N 2266788192) (PExp (N 64) (N 11524)))) (PMul (N 6496) (PDiv (PAdd (PNeg (N 64)) (PExp (N 64) (N 11524))) (N 63)))) (PAdd (PAdd (N 6578) (PMul (N 2266788192) (PExp (N 64) (N 11524)))) (PMul (N 6496) (PDiv (PAdd (PNeg (N 64)) (PExp (N 64) (N 11524))) (N 63)))) true);
(693, TEq (PAdd (PAdd (N 6584) (PMul (N 2266788192) (PExp (N 64) (N 11524)))) (PMul (N 6496) (PDiv (PAdd (PNeg (N 64)) (PExp (N 64) (N 11524))) (N 63)))) (PAdd (PAdd (N 6581) (PMul (N 2266788192) (PExp (N 64) (N 11524)))) (PMul (N 6496) (PDiv (PAdd (PNeg (N 64)) (PExp (N 64) (N 11524))) (N 63)))) false);
(694, TEq (PAdd (PAdd (N 6584) (PMul (N 2266788192) (PExp (N 64) (N 11524)))) (PMul (N 6496) (PDiv (PAdd (PNeg (N 64)) (PExp (N 64) (N 11524))) (N 63)))) (PAdd (PAdd (N 6578) (PMul (N 2266788192) (PExp (N 64) (N 11524)))) (PMul (N 6496) (PDiv (PAdd (PNeg (N 64)) (PExp (N 64) (N 11524))) (N 63)))) false);
(695, TEq (PAdd (PAdd (N 6581) (PMul (N 2266788192) (PExp (N 64) (N 11524)))) (PMul (N 6496) (PDiv (PAdd (PNeg (N 64)) (PExp (N 64) (N 11524))) (N 63)))) (PAdd (PAdd (N 6578) (PMul (N 2266788192) (PExp (N 64) (N 11524)))) (PMul (N 6496) (PDiv (PAdd (PNeg (N 64)) (PExp (N 64) (N 11524))) (N 63)))) false);
(697, TVal (PSub (PAdd (PAdd (N 6584) (PMul (N 2266788192) (PExp (N 64) (N 11524)))) (PMul (N 6496) (PDiv (PAdd (PNeg (N 64)) (PExp (N 64) (N 11524))) (N 63)))) (PAdd (PAdd (N 6581) (PMul (N 2266788192) (PExp (N 64) (N 11524)))) (PMul (N 6496) (PDiv (PAdd (PNeg (N 64)) (PExp (N 64) (N 11524))) (N 63))))) 3);
(697, TVal (PNeg (PSub (PAdd (PAdd (N 6584) (PMul (N 2266788192) (PExp (N 64) (N 11524)))) (PMul (N 6496) (PDiv (PAdd (PNeg (N 64)) (PExp (N 64) (N 11524))) (N 63)))) (PAdd (PAdd (N 6581) (PMul (N 2266788192) (PExp (N 64) (N 11524)))) (PMul (N 6496) (PDiv (PAdd (PNeg (N 64)) (PExp (N 64) (N 11524))) (N 63)))))) (-3));
(698, TVal (PSub (PAdd (PAdd (N 6581) (PMul (N 2266788192) (PExp (N 64) (N 11524)))) (PMul (N 6496) (PDiv (PAdd (PNeg (N 64)) (PExp (N 64) (N 11524))) (N 63)))) (PAdd (PAdd (N 6578) (PMul (N 2266788192) (PExp (N 64) (N 11524)))) (PMul (N 6496) (PDiv (PAdd (PNeg (N 64)) (PExp (N 64) (N 11524))) (N 63))))) 3);
(698, TVal (PNeg (PSub (PAdd (PAdd (N 6581) (PMul (N 2266788192) (PExp (N 64) (N 11524)))) (PMul (N 6496) (PDiv (PAdd (PNeg (N 64)) (PExp (N 64) (N 11524))) (N 63)))) (PAdd (PAdd (N 6578) (PMul (N 2266788192) (PExp (N 64) (N 11524)))) (PMul (N 6496) (PDiv (PAdd (PNeg (N 64)) (PExp (N 64) (N 11524))) (N 63)))))) (-3));
(699, TVal (PSub (PAdd (PAdd (N 6584) (PMul (N 2266788192) (PExp (N 64) (N 11524)))) (PMul (N 6496) (PDiv (PAdd (PNeg (N 64)) (PExp (N 64) (N 11524))) (N 63)))) (PAdd (PAdd (N 6578) (PMul (N 2266788192) (PExp (N 64) (N 11524)))) (PMul (N 6496) (PDiv (PAdd (PNeg (N 64)) (PExp (N 64) (N 11524))) (N 63))))) 6);
(699, TVal (PNeg (PSub (PAdd (PAdd (N 6584) (PMul (N 2266788192) (PExp (N 64) (N 11524)))) (PMul (N 6496) (PDiv (PAdd (PNeg (N 64)) (PExp (N 64) (N 11524))) (N 63)))) (PAdd (PAdd (N 6578) (PMul (N 2266788192) (PExp (N 64) (N 11524)))) (PMul (N 6496) (PDiv (PAdd (PNeg (N 64)) (PExp (N 64) (N 11524))) (N 63)))))) (-6));
(700, TVal (PSub (PAdd (PAdd (N 6578) (PMul (N 2266788192) (PExp (N 64) (N 11524)))) (PMul (N 6496) (PDiv (PAdd (PNeg (N 64)) (PExp (N 64) (N 11524))) (N 63)))) (PAdd (PAdd (N 6578) (PMul (N 2266788192) (PExp (N 64) (N 11524)))) (PMul (N 6496) (PDiv (PAdd (PNeg (N 64)) (PExp (N 64) (N 11524))) (N 63))))) 0);
(700, TVal (PNeg (PSub (PAdd (PAdd (N 6578) (PMul (N 2266788192) (PExp (N 64) (N 11524)))) (PMul (N 6496) (PDiv (PAdd (PNeg (N 64)) (PExp (N 64) (N 11524))) (N 63)))) (PAdd (PAdd (N 6578) (PMul (N 2266788192) (PExp (N 64) (N 11524)))) (PMul (N 6496) (PDiv (PAdd (PNeg (N 64)) (PExp (N 64) (N 11524))) (N 63)))))) 0);
(703, TVal (PMul (N 0) (PExp (N 2) (N 3))) 0);
(703, TVal (PNeg (PMul (N 0) (PExp (N 2) (N 3)))) 0);
(704, TVal (PMul (N 1) (PExp (N 2) (N 3))) 8);
(704, TVal (PNeg (PMul (N 1) (PExp (N 2) (N 3)))) (-8));
(705, TVal (PMul (N 1) (PMul (N 5) (PExp (N 2) (N 3)))) 40);
(705, TVal (PNeg (PMul (N 1) (PMul (N 5) (PExp (N 2) (N 3))))) (-40));
(706, TVal (PDiv (PDiv (PAdd (N 1) (PExp (N 2) (N 3))) (N 3)) (N 1)) 3);
(706, TVal (PNeg (PDiv (PDiv (PAdd (N 1) (PExp (N 2) (N 3))) (N 3)) (N 1))) (-3));
(709, TVal (PMul (N 3) (PExp (N 2) (N 5))) 96);
(709, TVal (PNeg (PMul (N 3) (PExp (N 2) (N 5)))) (-96));
(709, TRep (PMul (N 3) (PExp (N 2) (N 5))) "(3 * (2 ** 5))");
(714, TVal (PNeg (PMul (N 3) (PExp (N 2) (N 5)))) (-96));
(714, TVal (PNeg (PNeg (PMul (N 3) (PExp (N 2) (N 5))))) 96);
(714, TRep (PNeg (PMul (N 3) (PExp (N 2) (N 5)))) "(-3 * (2 ** 5))");
(722, TVal (PNeg (PExp (N 2) (N 1))) (-2));
(722, TVal (PNeg (PNeg (PExp (N 2) (N 1)))) 2);
(722, TVal (PNeg (PExp (N 3) (N 1))) (-3));
(722, TVal (PNeg (PNeg (PExp (N 3) (N 1)))) 3);
(722, TVal (PNeg (PExp (N 4) (N 1))) (-4));
(722, TVal (PNeg (PNeg (PExp (N 4) (N 1)))) 4);
(722, TVal (PNeg (PExp (N 5) (N 1))) (-5));
(722, TVal (PNeg (PNeg (PExp (N 5) (N 1)))) 5);
(722, TVal (PNeg (PExp (N 6) (N 1))) (-6));
(722, TVal (PNeg (PNeg (PExp (N 6) (N 1)))) 6);
(722, TVal (PNeg (PExp (N 7) (N 1))) (-7));
(722, TVal (PNeg (PNeg (PExp (N 7) (N 1)))) 7);
(722, TVal (PNeg (PExp (N 8) (N 1))) (-8));
(722, TVal (PNeg (PNeg (PExp (N 8) (N 1)))) 8);
(722, TVal (PNeg (PExp (N 9) (N 1))) (-9));
(722, TVal (PNeg (PNeg (PExp (N 9) (N 1)))) 9);
(722, TVal (PNeg (PExp (N 10) (N 1))) (-10));
(722, TVal (PNeg (PNeg (PExp (N 10) (N 1)))) 10);
(722, TVal (PNeg (PExp (N 2) (N 2))) (-4));
(722, TVal (PNeg (PNeg (PExp (N 2) (N 2)))) 4);
(722, TVal (PNeg (PExp (N 3) (N 2))) (-9));
(722, TVal (PNeg (PNeg (PExp (N 3) (N 2)))) 9);
(722, TVal (PNeg (PExp (N 4) (N 2))) (-16));
(722, TVal (PNeg (PNeg (PExp (N 4) (N 2)))) 16);
(722, TVal (PNeg (PExp (N 5) (N 2))) (-25));
(722, TVal (PNeg (PNeg (PExp (N 5) (N 2)))) 25);
(722, TVal (PNeg (PExp (N 6) (N 2))) (-36));
(722, TVal (PNeg (PNeg (PExp (N 6) (N 2)))) 36);
(722, TVal (PNeg (PExp (N 7) (N 2))) (-49));
(722, TVal (PNeg (PNeg (PExp (N 7) (N 2)))) 49);
(722, TVal (PNeg (PExp (N 8) (N 2))) (-64));
(722, TVal (PNeg (PNeg (PExp (N 8) (N 2)))) 64);
(722, TVal (PNeg (PExp (N 9) (N 2))) (-81));
(722, TVal (PNeg (PNeg (PExp (N 9) (N 2)))) 81);
(722, TVal (PNeg (PExp (N 10) (N 2))) (-100));
(722, TVal (PNeg (PNeg (PExp (N 10) (N 2)))) 100);
(722, TVal (PNeg (PExp (N 2) (N 3))) (-8));
(722, TVal (PNeg (PNeg (PExp (N 2) (N 3)))) 8);
(722, TVal (PNeg (PExp (N 3) (N 3))) (-27));
(722, TVal (PNeg (PNeg (PExp (N 3) (N 3)))) 27);
(722, TVal (PNeg (PExp (N 4) (N 3))) (-64));
(722, TVal (PNeg (PNeg (PExp (N 4) (N 3)))) 64);
(722, TVal (PNeg (PExp (N 5) (N 3))) (-125));
(722, TVal (PNeg (PNeg (PExp (N 5) (N 3)))) 125);
(722, TVal (PNeg (PExp (N 6) (N 3))) (-216));
(722, TVal (PNeg (PNeg (PExp (N 6) (N 3)))) 216);
(722, TVal (PNeg (PExp (N 7) (N 3))) (-343));
(722, TVal (PNeg (PNeg (PExp (N 7) (N 3)))) 343);
(722, TVal (PNeg (PExp (N 8) (N 3))) (-512));
(722, TVal (PNeg (PNeg (PExp (N 8) (N 3)))) 512);
(722, TVal (PNeg (PExp (N 9) (N 3))) (-729));
(722, TVal (PNeg (PNeg (PExp (N 9) (N 3)))) 729);
(722, TVal (PNeg (PExp (N 10) (N 3))) (-1000));
(722, TVal (PNeg (PNeg (PExp (N 10) (N 3)))) 1000);
(722, TVal (PNeg (PExp (N 2) (N 4))) (-16));
(722, TVal (PNeg (PNeg (PExp (N 2) (N 4)))) 16);
(722, TVal (PNeg (PExp (N 3) (N 4))) (-81));
(722, TVal (PNeg (PNeg (PExp (N 3) (N 4)))) 81);
(722, TVal (PNeg (PExp (N 4) (N 4))) (-256));
(722, TVal (PNeg (PNeg (PExp (N 4) (N 4)))) 256);
(722, TVal (PNeg (PExp (N 5) (N 4))) (-625));
(722, TVal (PNeg (PNeg (PExp (N 5) (N 4)))) 625);
(722, TVal (PNeg (PExp (N 6) (N 4))) (-1296));
(722, TVal (PNeg (PNeg (PExp (N 6) (N 4)))) 1296);
(722, TVal (PNeg (PExp (N 7) (N 4))) (-2401));
(722, TVal (PNeg (PNeg (PExp (N 7) (N 4)))) 2401);
(722, TVal (PNeg (PExp (N 8) (N 4))) (-4096));
(722, TVal (PNeg (PNeg (PExp (N 8) (N 4)))) 4096);
(722, TVal (PNeg (PExp (N 9) (N 4))) (-6561));
(722, TVal (PNeg (PNeg (PExp (N 9) (N 4)))) 6561);
(722, TVal (PNeg (PExp (N 10) (N 4))) (-10000));
(722, TVal (PNeg (PNeg (PExp (N 10) (N 4)))) 10000);
(722, TVal (PNeg (PExp (N 2) (N 5))) (-32));
(722, TVal (PNeg (PNeg (PExp (N 2) (N 5)))) 32);
(722, TVal (PNeg (PExp (N 3) (N 5))) (-243));
(722, TVal (PNeg (PNeg (PExp (N 3) (N 5)))) 243);
(722, TVal (PNeg (PExp (N 4) (N 5))) (-1024));
(722, TVal (PNeg (PNeg (PExp (N 4) (N 5)))) 1024);
(722, TVal (PNeg (PExp (N 5) (N 5))) (-3125));
(722, TVal (PNeg (PNeg (PExp (N 5) (N 5)))) 3125);
(722, TVal (PNeg (PExp (N 6) (N 5))) (-7776));
(722, TVal (PNeg (PNeg (PExp (N 6) (N 5)))) 7776);
(722, TVal (PNeg (PExp (N 7) (N 5))) (-16807));
(722, TVal (PNeg (PNeg (PExp (N 7) (N 5)))) 16807);
(722, TVal (PNeg (PExp (N 8) (N 5))) (-32768));
(722, TVal (PNeg (PNeg (PExp (N 8) (N 5)))) 32768);
(722, TVal (PNeg (PExp (N 9) (N 5))) (-59049));
(722, TVal (PNeg (PNeg (PExp (N 9) (N 5)))) 59049);
(722, TVal (PNeg (PExp (N 10) (N 5))) (-100000));
(722, TVal (PNeg (PNeg (PExp (N 10) (N 5)))) 100000);
(722, TVal (PNeg (PExp (N 2) (N 6))) (-64));
(722, TVal (PNeg (PNeg (PExp (N 2) (N 6)))) 64);
(722, TVal (PNeg (PExp (N 3) (N 6))) (-729));
(722, TVal (PNeg (PNeg (PExp (N 3) (N 6)))) 729);
(722, TVal (PNeg (PExp (N 4) (N 6))) (-4096));
(722, TVal (PNeg (PNeg (PExp (N 4) (N 6)))) 4096);
(722, TVal (PNeg (PExp (N 5) (N 6))) (-15625));
(722, TVal (PNeg (PNeg (PExp (N 5) (N 6)))) 15625);
(722, TVal (PNeg (PExp (N 6) (N 6))) (-46656));
(722, TVal (PNeg (PNeg (PExp (N 6) (N 6)))) 46656);
(722, TVal (PNeg (PExp (N 7) (N 6))) (-117649));
(722, TVal (PNeg (PNeg (PExp (N 7) (N 6)))) 117649);
(722, TVal (PNeg (PExp (N 8) (N 6))) (-262144));
(722, TVal (PNeg (PNeg (PExp (N 8) (N 6)))) 262144);
(722, TVal (PNeg (PExp (N 9) (N 6))) (-531441));
(722, TVal (PNeg (PNeg (PExp (N 9) (N 6)))) 531441);
(722, TVal (PNeg (PExp (N 10) (N 6))) (-1000000));
(722, TVal (PNeg (PNeg (PExp (N 10) (N 6)))) 1000000);
(722, TVal (PNeg (PExp (N 2) (N 7))) (-128));
(722, TVal (PNeg (PNeg (PExp (N 2) (N 7)))) 128);
(722, TVal (PNeg (PExp (N 3) (N 7))) (-2187));
(722, TVal (PNeg (PNeg (PExp (N 3) (N 7)))) 2187);
(722, TVal (PNeg (PExp (N 4) (N 7))) (-16384));
(722, TVal (PNeg (PNeg (PExp (N 4) (N 7)))) 16384);
(722, TVal (PNeg (PExp (N 5) (N 7))) (-78125));
(722, TVal (PNeg (PNeg (PExp (N 5) (N 7)))) 78125);
(722, TVal (PNeg (PExp (N 6) (N 7))) (-279936));
(722, TVal (PNeg (PNeg (PExp (N 6) (N 7)))) 279936);
(722, TVal (PNeg (PExp (N 7) (N 7))) (-823543));
(722, TVal (PNeg (PNeg (PExp (N 7) (N 7)))) 823543);
(722, TVal (PNeg (PExp (N 8) (N 7))) (-2097152));
(722, TVal (PNeg (PNeg (PExp (N 8) (N 7)))) 2097152);
(722, TVal (PNeg (PExp (N 9) (N 7))) (-4782969));
(722, TVal (PNeg (PNeg (PExp (N 9) (N 7)))) 4782969);
(722, TVal (PNeg (PExp (N 10) (N 7))) (-10000000));
(722, TVal (PNeg (PNeg (PExp (N 10) (N 7)))) 10000000);
(722, TVal (PNeg (PExp (N 2) (N 8))) (-256));
(722, TVal (PNeg (PNeg (PExp (N 2) (N 8)))) 256);
(722, TVal (PNeg (PExp (N 3) (N 8))) (-6561));
(722, TVal (PNeg (PNeg (PExp (N 3) (N 8)))) 6561);
(722, TVal (PNeg (PExp (N 4) (N 8))) (-65536));
(722, TVal (PNeg (PNeg (PExp (N 4) (N 8)))) 65536);
(722, TVal (PNeg (PExp (N 5) (N 8))) (-390625));
(722, TVal (PNeg (PNeg (PExp (N 5) (N 8)))) 390625);
(722, TVal (PNeg (PExp (N 6) (N 8))) (-1679616));
(722, TVal (PNeg (PNeg (PExp (N 6) (N 8)))) 1679616);
(722, TVal (PNeg (PExp (N 7) (N 8))) (-5764801));
(722, TVal (PNeg (PNeg (PExp (N 7) (N 8)))) 5764801);
(722, TVal (PNeg (PExp (N 8) (N 8))) (-16777216));
(722, TVal (PNeg (PNeg (PExp (N 8) (N 8)))) 16777216);
(722, TVal (PNeg (PExp (N 9) (N 8))) (-43046721));
(722, TVal (PNeg (PNeg (PExp (N 9) (N 8)))) 43046721);
(722, TVal (PNeg (PExp (N 10) (N 8))) (-100000000));
(722, TVal (PNeg (PNeg (PExp (N 10) (N 8)))) 100000000);
(722, TVal (PNeg (PExp (N 2) (N 9))) (-512));
(722, TVal (PNeg (PNeg (PExp (N 2) (N 9)))) 512);
(722, TVal (PNeg (PExp (N 3) (N 9))) (-19683));
(722, TVal (PNeg (PNeg (PExp (N 3) (N 9)))) 19683);
(722, TVal (PNeg (PExp (N 4) (N 9))) (-262144));
(722, TVal (PNeg (PNeg (PExp (N 4) (N 9)))) 262144);
(722, TVal (PNeg (PExp (N 5) (N 9))) (-1953125));
(722, TVal (PNeg (PNeg (PExp (N 5) (N 9)))) 1953125);
(722, TVal (PNeg (PExp (N 6) (N 9))) (-10077696));
(722, TVal (PNeg (PNeg (PExp (N 6) (N 9)))) 10077696);
(722, TVal (PNeg (PExp (N 7) (N 9))) (-40353607));
(722, TVal (PNeg (PNeg (PExp (N 7) (N 9)))) 40353607);
(722, TVal (PNeg (PExp (N 8) (N 9))) (-134217728));
(722, TVal (PNeg (PNeg (PExp (N 8) (N 9)))) 134217728);
(722, TVal (PNeg (PExp (N 9) (N 9))) (-387420489));
(722, TVal (PNeg (PNeg (PExp (N 9) (N 9)))) 387420489);
(722, TVal (PNeg (PExp (N 10) (N 9))) (-1000000000));
(722, TVal (PNeg (PNeg (PExp (N 10) (N 9)))) 1000000000);
(726, TVal (PNeg (PExp (N 2) (N 3))) (-8));
(726, TVal (PNeg (PNeg (PExp (N 2) (N 3)))) 8);
(726, TRep (PNeg (PExp (N 2) (N 3))) "-(2 ** 3)");
(731, TVal (PNeg (PExp (N 2) (N 4))) (-16));
(731, TVal (PNeg (PNeg (PExp (N 2) (N 4)))) 16);
(731, TRep (PNeg (PExp (N 2) (N 4))) "-(2 ** 4)");
(736, TVal (PMul (PNeg (N 64)) (PExp (N 2) (N 20))) (-67108864));
(736, TVal (PNeg (PMul (PNeg (N 64)) (PExp (N 2) (N 20)))) 67108864);
(736, TRep (PMul (PNeg (N 64)) (PExp (N 2) (N 20))) "-(2 ** 26)");
(741, TVal (PMul (PNeg (N 64)) (PExp (N 2) (N 21))) (-134217728));
(741, TVal (PNeg (PMul (PNeg (N 64)) (PExp (N 2) (N 21)))) 134217728);
(741, TRep (PMul (PNeg (N 64)) (PExp (N 2) (N 21))) "-(2 ** 27)");
(746, TVal (PMul (N 64) (PExp (N 2) (N 21))) 134217728);
(746, TVal (PNeg (PMul (N 64) (PExp (N 2) (N 21)))) (-134217728));
(746, TRep (PMul (N 64) (PExp (N 2) (N 21))) "(2 ** 27)");
(751, TVal (PMul (N 64) (PExp (N 2) (N 20))) 67108864);
(751, TVal (PNeg (PMul (N 64) (PExp (N 2) (N 20)))) (-67108864));
(751, TRep (PMul (N 64) (PExp (N 2) (N 20))) "(2 ** 26)");
(759, TVal (PMul (PExp (N 2) (N 17)) (PAdd (N 4) (PExp (N 2) (N 15)))) 4295491584);
(759, TVal (PNeg (PMul (PExp (N 2) (N 17)) (PAdd (N 4) (PExp (N 2) (N 15))))) (-4295491584));
(763, TVal (PMul (PExp (N 2) (N 17)) (PAdd (N 4) (PExp (N 2) (N 15)))) 4295491584);
(763, TVal (PNeg (PMul (PExp (N 2) (N 17)) (PAdd (N 4) (PExp (N 2) (N 15))))) (-4295491584));
(763, TRep (PMul (PExp (N 2) (N 17)) (PAdd (N 4) (PExp (N 2) (N 15)))) "(8193 * (2 ** 19))");
(768, TVal (PMul (PExp (N 2) (N 17)) (PAdd (N 4) (PExp (N 2) (N 15)))) 4295491584);
(768, TVal (PNeg (PMul (PExp (N 2) (N 17)) (PAdd (N 4) (PExp (N 2) (N 15))))) (-4295491584));
(772, TVal (PAdd (PPow (N 2) (PAdd (PNeg (N 2)) (PExp (N 3) (N 3)))) (PPow (N 2) (PAdd (PNeg (N 3)) (PExp (N 3) (N 3))))) 50331648);
(772, TVal (PNeg (PAdd (PPow (N 2) (PAdd (PNeg (N 2)) (PExp (N 3) (N 3)))) (PPow (N 2) (PAdd (PNeg (N 3)) (PExp (N 3) (N 3)))))) (-50331648));
(772, TRep (PAdd (PPow (N 2) (PAdd (PNeg (N 2)) (PExp (N 3) (N 3)))) (PPow (N 2) (PAdd (PNeg (N 3)) (PExp (N 3) (N 3))))) "(3 * (2 ** (-3 + (3 ** 3))))");
(778, TLt (PAdd (PNeg (N 3)) (PExp (N 2) (N 4))) (PAdd (PNeg (N 3)) (PExp (N 2) (N 5))) (Ok true));
(782, TLt (PAdd (PNeg (N 3)) (PExp (N 2) (N 5))) (PAdd (PNeg (N 2)) (PExp (N 2) (N 5))) (Ok true));
(786, TLt (PMul (N 3) (PExp (N 2) (N 4))) (PMul (N 3) (PExp (N 2) (N 5))) (Ok true));
(790, TLt (PMul (N 3) (PExp (N 2) (N 5))) (PMul (N 5) (PExp (N 2) (N 5))) (Ok true));
(794, TLt (PAdd (N 4) (PExp (N 2) (N 4))) (PAdd (N 3) (PExp (N 2) (N 5))) (Ok true));
(798, TLt (PExp (N 2) (N 3)) (PMul (PExp (N 2) (N 3)) (PAdd (N 1) (PExp (N 2) (N 3)))) (Ok true));
(802, TLt (PAdd (N 3) (PExp (N 2) (N 3))) (PMul (N 4) (PExp (N 2) (N 5))) (Ok true));
(806, TLt (PAdd (PNeg (N 1)) (PMul (N 3) (PExp (N 2) (N 3)))) (PMul (N 3) (PExp (N 2) (N 3))) (Ok true));
(810, TLt (PMul (N 3) (PExp (N 2) (N 3))) (PAdd (N 1) (PMul (N 3) (PExp (N 2) (N 3)))) (Ok true));
(814, TLt (PDiv (PAdd (N 1) (PExp (N 2) (N 3))) (N 3)) (PDiv (PAdd (N 1) (PExp (N 2) (N 5))) (N 3)) (Ok true));
(818, TLt (N 1) (PDiv (PAdd (N 1) (PExp (N 2) (N 3))) (N 3)) (Ok true));
(822, TLt (PAdd (N 49) (PMul (N 13) (PExp (N 2) (N 15)))) (PAdd (N 113) (PMul (N 13) (PExp (N 2) (N 16)))) (Ok true));
(826, TLt (PExp (N 10) (PAdd (N 3) (PExp (N 10) (PExp (N 10) (N 3))))) (PExp (N 10) (PAdd (N 3) (PExp (N 10) (N 3)))) (Ok false));
(830, TLt (PExp (N 10) (PAdd (N 3) (PExp (N 10) (N 3)))) (PExp (N 10) (PAdd (N 3) (PExp (N 10) (PExp (N 10) (N 3))))) (Ok true));
(835, TLt (PMul (PExp (N 2) (N 13)) (PAdd (PNeg (N 1)) (PExp (N 2) (N 13)))) (PPow (N 2) (PAdd (PNeg (N 3)) (PExp (N 2) (N 13)))) NotImpl);
(843, TLt (PMul (N 15) (PExp (N 2) (N 86))) (PMul (N 9) (PExp (N 2) (N 87))) (Ok true));
(847, TLt (PMul (N 9) (PExp (N 2) (N 87))) (PMul (N 15) (PExp (N 2) (N 86))) (Ok false));
(851, TLt (PNeg (PExp (N 10) (N 14050258128))) (PExp (N 10) (N 14050259810)) (Ok true));
(856, TLt (PMul (PExp (N 3) (N 5)) (PAdd (PNeg (N 243)) (PPow (N 3) (PExp (N 3) (N 5))))) (PPow (N 3) (PExp (N 3) (N 5))) NotImpl);
(864, TLt (PMul (PExp (N 2) (N 5)) (PAdd (PNeg (N 1)) (PPow (N 2) (PAdd (PNeg (N 5)) (PExp (N 2) (N 5)))))) (PAdd (PNeg (N 1)) (PMul (PExp (N 2) (N 5)) (PAdd (PNeg (N 1)) (PPow (N 2) (PAdd (PNeg (N 5)) (PPow (N 2) (PExp (N 2) (N 5)))))))) (Ok true));
(869, TLt (PMul (PExp (N 2) (N 5)) (PAdd (PNeg (N 1)) (PPow (N 2) (PAdd (PNeg (N 5)) (PExp (N 2) (N 5)))))) (PMul (PExp (N 2) (N 5)) (PAdd (PNeg (N 1)) (PPow (N 2) (PAdd (PNeg (N 5)) (PPow (N 2) (PExp (N 2) (N 5))))))) (Ok true));
(874, TLt (PAdd (PNeg (N 1)) (PPow (N 2) (PAdd (PNeg (N 5)) (PExp (N 2) (N 5))))) (PAdd (PNeg (N 1)) (PPow (N 2) (PAdd (PNeg (N 5)) (PPow (N 2) (PExp (N 2) (N 5)))))) (Ok true));
(879, TLt (PPow (N 2) (PAdd (PNeg (N 5)) (PExp (N 2) (N 5)))) (PPow (N 2) (PAdd (PNeg (N 5)) (PPow (N 2) (PExp (N 2) (N 5))))) (Ok true));
(884, TLt (PNeg (PMul (PExp (N 2) (N 65536)) (PAdd (PNeg (N 1)) (PPow (N 2) (PAdd (PNeg (N 65536)) (PExp (N 2) (N 65536))))))) (PNeg (PMul (PExp (N 2) (N 65536)) (PAdd (PNeg (N 1)) (PPow (N 2) (PAdd (PNeg (N 65536)) (PExp (N 2) (N 65536))))))) (Ok false));
(888, TLt (PMul (PAdd (N 1) (PExp (N 2) (N 2))) (PPow (N 2) (PAdd (PNeg (N 3)) (PMul (PExp (N 2) (N 655357)) (PAdd (N 1) (PExp (N 2) (N 2))))))) (PMul (PExp (N 2) (N 655357)) (PAdd (N 1) (PExp (N 2) (N 2)))) (Ok false));
(892, TGt (PAdd (N 2) (PExp (N 2) (N 3))) (PExp (N 2) (N 3)) (Ok true));
(896, TLt (PMul (PAdd (N 2) (PExp (N 2) (N 3))) (PPow (N 2) (PDiv (PAdd (PNeg (N 4)) (PMul (N 5) (PExp (N 2) (N 11)))) (N 3)))) (PExp (N 2) (N 3)) (Ok false));
(900, TLt (PMul (PExp (N 2) (N 33)) (PAdd (N 1) (PExp (N 2) (N 2)))) (PMul (PAdd (N 1) (PExp (N 2) (N 2))) (PPow (N 2) (PAdd (PNeg (N 3)) (PMul (PExp (N 2) (N 33)) (PAdd (N 1) (PExp (N 2) (N 2))))))) (Ok true));
(905, TLt (PPow (N 10) (PExp (N 10) (N 8274649522))) (PAdd (N 8274649524) (PExp (N 10) (N 8274649522))) (Ok false));
(909, TLt (PAdd (PNeg (PMul (PExp (N 2) (N 11760)) (PAdd (N 1) (PExp (N 2) (N 5879))))) (PMul (PExp (N 2) (N 20578)) (PAdd (PNeg (N 1)) (PMul (N 11) (PExp (N 2) (N 1469)))))) (PAdd (PMul (PExp (N 2) (N 44097)) (PAdd (PNeg (N 1)) (PMul (N 11) (PExp (N 2) (N 1469))))) (PNeg (PMul (PExp (N 2) (N 23520)) (PAdd (N 1) (PMul (PExp (N 2) (N 11759)) (PAdd (N 1) (PExp (N 2) (N 5879)))))))) (Ok true));
(914, TLt (PExp (N 2) (N 3)) (PMul (PExp (N 2) (N 3)) (PAdd (N 2) (PExp (N 2) (N 3)))) (Ok true));
(918, TLt (PMul (PExp (N 2) (N 3)) (PAdd (N 2) (PMul (PExp (N 2) (N 3)) (PAdd (N 2) (PMul (PExp (N 2) (N 3)) (PAdd (N 2) (PMul (PExp (N 2) (N 3)) (PAdd (N 2) (PExp (N 2) (N 3)))))))))) (PMul (PExp (N 2) (N 3)) (PAdd (N 2) (PMul (PExp (N 2) (N 3)) (PAdd (N 2) (PMul (PExp (N 2) (N 3)) (PAdd (N 2) (PMul (PExp (N 2) (N 3)) (PAdd (N 2) (PMul (PExp (N 2) (N 3)) (PAdd (N 2) (PExp (N 2) (N 3)))))))))))) (Ok true));
(923, TLt (PMul (N 3) (PPow (N 2) (PAdd (N 5) (PMul (PExp (N 2) (N 5)) (PAdd (N 1) (PPow (N 2) (PExp (N 2) (N 5)))))))) (PPow (N 2) (PExp (N 2) (N 5))) (Ok false));
(927, TLt (PAdd (PNeg (PMul (PExp (N 2) (N 8)) (PAdd (PNeg (N 1)) (PPow (N 2) (PAdd (PNeg (N 8)) (PExp (N 2) (N 8))))))) (PMul (PExp (N 2) (N 8)) (PAdd (PNeg (N 1)) (PPow (N 2) (PAdd (PNeg (N 8)) (PPow (N 2) (PPow (N 2) (PExp (N 2) (N 8))))))))) (PAdd (PMul (PExp (N 2) (N 8)) (PAdd (PNeg (N 1)) (PPow (N 2) (PAdd (PNeg (N 8)) (PPow (N 2) (PExp (N 2) (N 8))))))) (PNeg (PMul (PExp (N 2) (N 8)) (PAdd (PNeg (N 1)) (PPow (N 2) (PAdd (PNeg (N 8)) (PExp (N 2) (N 8)))))))) (Ok false));
(956, TLt (PExp (N 2) (N 13)) (PMul (PExp (N 2) (N 10)) (PAdd (N 4) (PExp (N 2) (N 13)))) (Ok true));
(960, TLt (PExp (N 2) (N 13)) (PMul (PExp (N 2) (N 12)) (PAdd (N 1) (PExp (N 2) (N 11)))) (Ok true));
(964, TLt (PMul (PExp (N 2) (N 7)) (PAdd (N 4) (PMul (PExp (N 2) (N 8)) (PAdd (N 4) (PMul (PExp (N 2) (N 9)) (PAdd (N 4) (PMul (PExp (N 2) (N 10)) (PAdd (N 4) (PExp (N 2) (N 13)))))))))) (PMul (PExp (N 2) (N 6)) (PAdd (N 4) (PMul (PExp (N 2) (N 7)) (PAdd (N 4) (PMul (PExp (N 2) (N 8)) (PAdd (N 4) (PMul (PExp (N 2) (N 9)) (PAdd (N 4) (PMul (PExp (N 2) (N 10)) (PAdd (N 4) (PExp (N 2) (N 13)))))))))))) (Ok true));
(969, TLt (PMul (PExp (N 2) (N 10)) (PAdd (N 4) (PExp (N 2) (N 13)))) (PExp (N 2) (N 13)) NotImpl);
(977, TLt (PPow (N 2) (PMul (PExp (N 2) (N 19)) (PAdd (PNeg (N 1)) (PPow (N 2) (PAdd (PNeg (N 17)) (PExp (N 2) (N 19))))))) (PPow (N 2) (PAdd (N 2) (PMul (PExp (N 2) (N 19)) (PAdd (PNeg (N 1)) (PPow (N 2) (PAdd (PNeg (N 17)) (PExp (N 2) (N 19)))))))) (Ok true));
(986, TLt (PAdd (PMul (PExp (N 2) (N 88)) (PAdd (PNeg (N 1)) (PPow (N 2) (PDiv (PAdd (PNeg (N 256)) (PExp (N 2) (N 88))) (N 3))))) (PMul (PPow (N 2) (PDiv (PAdd (N 8) (PExp (N 2) (N 88))) (N 3))) (PAdd (PNeg (N 1)) (PPow (N 2) (PDiv (PMul (PExp (N 2) (N 88)) (PAdd (PNeg (N 1)) (PPow (N 2) (PDiv (PAdd (PNeg (N 256)) (PExp (N 2) (N 88))) (N 3))))) (N 3)))))) (PMul (PExp (N 2) (N 88)) (PAdd (PNeg (N 1)) (PPow (N 2) (PDiv (PAdd (PNeg (N 256)) (PExp (N 2) (N 88))) (N 3))))) (Ok false));
(991, TVal (PAdd (PExp (N 2) (N 3)) (PExp (N 2) (N 5))) 40);
(991, TVal (PNeg (PAdd (PExp (N 2) (N 3)) (PExp (N 2) (N 5)))) (-40));
(991, TRep (PAdd (PExp (N 2) (N 3)) (PExp (N 2) (N 5))) "(5 * (2 ** 3))");
(996, TVal (PAdd (PExp (N 2) (N 3)) (PMul (PExp (N 2) (N 5)) (N 7))) 232);
(996, TVal (PNeg (PAdd (PExp (N 2) (N 3)) (PMul (PExp (N 2) (N 5)) (N 7)))) (-232));
(996, TRep (PAdd (PExp (N 2) (N 3)) (PMul (PExp (N 2) (N 5)) (N 7))) "(29 * (2 ** 3))");
(1001, TVal (PAdd (PMul (PExp (N 2) (N 3)) (N 7)) (PExp (N 2) (N 5))) 88);
(1001, TVal (PNeg (PAdd (PMul (PExp (N 2) (N 3)) (N 7)) (PExp (N 2) (N 5)))) (-88));
(1001, TRep (PAdd (PMul (PExp (N 2) (N 3)) (N 7)) (PExp (N 2) (N 5))) "(11 * (2 ** 3))");
(1006, TVal (PAdd (PExp (N 2) (N 3)) (PAdd (PNeg (N 4)) (PExp (N 2) (N 3)))) 12);
(1006, TVal (PNeg (PAdd (PExp (N 2) (N 3)) (PAdd (PNeg (N 4)) (PExp (N 2) (N 3))))) (-12));
(1006, TRep (PAdd (PExp (N 2) (N 3)) (PAdd (PNeg (N 4)) (PExp (N 2) (N 3)))) "(-4 + (2 ** 4))");
(1011, TVal (PAdd (PMul (PExp (N 2) (N 3)) (N 7)) (PMul (PExp (N 2) (N 5)) (N 11))) 408);
(1011, TVal (PNeg (PAdd (PMul (PExp (N 2) (N 3)) (N 7)) (PMul (PExp (N 2) (N 5)) (N 11)))) (-408));
(1011, TRep (PAdd (PMul (PExp (N 2) (N 3)) (N 7)) (PMul (PExp (N 2) (N 5)) (N 11))) "(51 * (2 ** 3))");
(1016, TVal (PSub (PAdd (PNeg (N 12)) (PPow (N 2) (PAdd (PNeg (N 1)) (PExp (N 2) (N 3))))) (PAdd (PNeg (N 11)) (PExp (N 2) (N 3)))) 119);
(1016, TVal (PNeg (PSub (PAdd (PNeg (N 12)) (PPow (N 2) (PAdd (PNeg (N 1)) (PExp (N 2) (N 3))))) (PAdd (PNeg (N 11)) (PExp (N 2) (N 3))))) (-119));
(1016, TRep (PSub (PAdd (PNeg (N 12)) (PPow (N 2) (PAdd (PNeg (N 1)) (PExp (N 2) (N 3))))) (PAdd (PNeg (N 11)) (PExp (N 2) (N 3)))) "(-1 + ((2 ** 3) * (-1 + (2 ** (-4 + (2 ** 3))))))");
(1021, TVal (PAdd (PPow (N 2) (PMul (N 3) (PExp (N 2) (N 3)))) (PPow (N 2) (PAdd (PNeg (N 1)) (PMul (N 3) (PExp (N 2) (N 3)))))) 25165824);
(1021, TVal (PNeg (PAdd (PPow (N 2) (PMul (N 3) (PExp (N 2) (N 3)))) (PPow (N 2) (PAdd (PNeg (N 1)) (PMul (N 3) (PExp (N 2) (N 3))))))) (-25165824));
(1021, TRep (PAdd (PPow (N 2) (PMul (N 3) (PExp (N 2) (N 3)))) (PPow (N 2) (PAdd (PNeg (N 1)) (PMul (N 3) (PExp (N 2) (N 3)))))) "(3 * (2 ** (-1 + (3 * (2 ** 3)))))");
(1026, TVal (PAdd (PPow (N 2) (PMul (N 3) (PExp (N 2) (N 3)))) (PPow (N 2) (PAdd (N 1) (PMul (N 3) (PExp (N 2) (N 3)))))) 50331648);
(1026, TVal (PNeg (PAdd (PPow (N 2) (PMul (N 3) (PExp (N 2) (N 3)))) (PPow (N 2) (PAdd (N 1) (PMul (N 3) (PExp (N 2) (N 3))))))) (-50331648));
(1026, TRep (PAdd (PPow (N 2) (PMul (N 3) (PExp (N 2) (N 3)))) (PPow (N 2) (PAdd (N 1) (PMul (N 3) (PExp (N 2) (N 3)))))) "(3 * (2 ** (3 * (2 ** 3))))");
(1031, TVal (PDiv (PAdd (PNeg (N 1)) (PExp (N 3) (N 4))) (N 2)) 40);
(1031, TVal (PNeg (PDiv (PAdd (PNeg (N 1)) (PExp (N 3) (N 4))) (N 2))) (-40));
(1031, TRep (PDiv (PAdd (PNeg (N 1)) (PExp (N 3) (N 4))) (N 2)) "((-1 + (3 ** 4)) // 2)");
(1036, TVal (PMul (PMul (N 2) (PExp (N 3) (N 18))) (PDiv (PAdd (PNeg (N 1)) (PExp (N 3) (N 4))) (N 2))) 30993639120);
(1036, TVal (PNeg (PMul (PMul (N 2) (PExp (N 3) (N 18))) (PDiv (PAdd (PNeg (N 1)) (PExp (N 3) (N 4))) (N 2)))) (-30993639120));
(1036, TRep (PMul (PMul (N 2) (PExp (N 3) (N 18))) (PDiv (PAdd (PNeg (N 1)) (PExp (N 3) (N 4))) (N 2))) "(80 * (3 ** 18))");
(1041, TVal (PAdd (PExp (N 3) (N 18)) (PMul (PMul (N 2) (PExp (N 3) (N 18))) (PDiv (PAdd (PNeg (N 1)) (PExp (N 3) (N 4))) (N 2)))) 31381059609);
(1041, TVal (PNeg (PAdd (PExp (N 3) (N 18)) (PMul (PMul (N 2) (PExp (N 3) (N 18))) (PDiv (PAdd (PNeg (N 1)) (PExp (N 3) (N 4))) (N 2))))) (-31381059609));
(1041, TRep (PAdd (PExp (N 3) (N 18)) (PMul (PMul (N 2) (PExp (N 3) (N 18))) (PDiv (PAdd (PNeg (N 1)) (PExp (N 3) (N 4))) (N 2)))) "(3 ** 22)");
(1047, TVal (PMul (PExp (N 2) (N 3)) (PPow (N 2) (PExp (N 2) (N 5)))) 34359738368);
(1047, TVal (PNeg (PMul (PExp (N 2) (N 3)) (PPow (N 2) (PExp (N 2) (N 5))))) (-34359738368));
(1047, TRep (PMul (PExp (N 2) (N 3)) (PPow (N 2) (PExp (N 2) (N 5)))) "(2 ** (3 + (2 ** 5)))");
(1052, TVal (PMul (PExp (N 2) (N 3)) (PPow (N 2) (PExp (N 2) (N 4)))) 524288);
(1052, TVal (PNeg (PMul (PExp (N 2) (N 3)) (PPow (N 2) (PExp (N 2) (N 4))))) (-524288));
(1052, TRep (PMul (PExp (N 2) (N 3)) (PPow (N 2) (PExp (N 2) (N 4)))) "(2 ** (3 + (2 ** 4)))");
(1057, TVal (PMul (PExp (N 2) (N 3)) (PPow (N 2) (PAdd (PNeg (N 3)) (PExp (N 2) (N 4))))) 65536);
(1057, TVal (PNeg (PMul (PExp (N 2) (N 3)) (PPow (N 2) (PAdd (PNeg (N 3)) (PExp (N 2) (N 4)))))) (-65536));
(1057, TRep (PMul (PExp (N 2) (N 3)) (PPow (N 2) (PAdd (PNeg (N 3)) (PExp (N 2) (N 4))))) "(2 ** (2 ** 4))");
(1062, TVal (PAdd (PMul (PExp (N 2) (N 3)) (N 5)) (PMul (PExp (N 2) (N 3)) (PPow (N 2) (PAdd (PNeg (N 3)) (PExp (N 2) (N 4)))))) 65576);
(1062, TVal (PNeg (PAdd (PMul (PExp (N 2) (N 3)) (N 5)) (PMul (PExp (N 2) (N 3)) (PPow (N 2) (PAdd (PNeg (N 3)) (PExp (N 2) (N 4))))))) (-65576));
(1062, TRep (PAdd (PMul (PExp (N 2) (N 3)) (N 5)) (PMul (PExp (N 2) (N 3)) (PPow (N 2) (PAdd (PNeg (N 3)) (PExp (N 2) (N 4)))))) "((2 ** 3) * (5 + (2 ** (-3 + (2 ** 4)))))");
(1067, TVal (PAdd (PMul (PExp (N 2) (N 3)) (N 5)) (PPow (N 2) (PExp (N 2) (N 4)))) 65576);
(1067, TVal (PNeg (PAdd (PMul (PExp (N 2) (N 3)) (N 5)) (PPow (N 2) (PExp (N 2) (N 4))))) (-65576));
(1067, TRep (PAdd (PMul (PExp (N 2) (N 3)) (N 5)) (PPow (N 2) (PExp (N 2) (N 4)))) "((2 ** 3) * (5 + (2 ** (-3 + (2 ** 4)))))");
(1072, TVal (PAdd (PMul (N 5) (PExp (N 2) (N 3))) (PPow (N 2) (PExp (N 2) (N 4)))) 65576);
(1072, TVal (PNeg (PAdd (PMul (N 5) (PExp (N 2) (N 3))) (PPow (N 2) (PExp (N 2) (N 4))))) (-65576));
(1072, TRep (PAdd (PMul (N 5) (PExp (N 2) (N 3))) (PPow (N 2) (PExp (N 2) (N 4)))) "((2 ** 3) * (5 + (2 ** (-3 + (2 ** 4)))))");
(1077, TVal (PMul (PExp (N 2) (N 3)) (PAdd (N 5) (PPow (N 2) (PAdd (PNeg (N 3)) (PExp (N 2) (N 4)))))) 65576);
(1077, TVal (PNeg (PMul (PExp (N 2) (N 3)) (PAdd (N 5) (PPow (N 2) (PAdd (PNeg (N 3)) (PExp (N 2) (N 4))))))) (-65576));
(1077, TRep (PMul (PExp (N 2) (N 3)) (PAdd (N 5) (PPow (N 2) (PAdd (PNeg (N 3)) (PExp (N 2) (N 4)))))) "((2 ** 3) * (5 + (2 ** (-3 + (2 ** 4)))))");
(1082, TVal (PMul (PExp (N 2) (N 3)) (PAdd (N 5) (PPow (N 2) (PExp (N 2) (N 4))))) 524328);
(1082, TVal (PNeg (PMul (PExp (N 2) (N 3)) (PAdd (N 5) (PPow (N 2) (PExp (N 2) (N 4)))))) (-524328));
(1082, TRep (PMul (PExp (N 2) (N 3)) (PAdd (N 5) (PPow (N 2) (PExp (N 2) (N 4))))) "((2 ** 3) * (5 + (2 ** (2 ** 4))))");
(1087, TVal (PMul (PNeg (PExp (N 2) (N 4))) (N 32)) (-512));
(1087, TVal (PNeg (PMul (PNeg (PExp (N 2) (N 4))) (N 32))) 512);
(1087, TRep (PMul (PNeg (PExp (N 2) (N 4))) (N 32)) "-(2 ** 9)");
(1092, TVal (PMul (PExp (N 2) (N 10)) (PMul (PNeg (PExp (N 2) (N 6))) (PAdd (N 1) (PExp (N 2) (N 4))))) (-1114112));
(1092, TVal (PNeg (PMul (PExp (N 2) (N 10)) (PMul (PNeg (PExp (N 2) (N 6))) (PAdd (N 1) (PExp (N 2) (N 4)))))) 1114112);
(1092, TRep (PMul (PExp (N 2) (N 10)) (PMul (PNeg (PExp (N 2) (N 6))) (PAdd (N 1) (PExp (N 2) (N 4))))) "(-17 * (2 ** 16))");
(1097, TVal (PMul (PExp (N 2) (N 4)) (PAdd (N 1) (PMul (PExp (N 2) (N 3)) (PAdd (N 1) (PExp (N 2) (N 2)))))) 656);
(1097, TVal (PNeg (PMul (PExp (N 2) (N 4)) (PAdd (N 1) (PMul (PExp (N 2) (N 3)) (PAdd (N 1) (PExp (N 2) (N 2))))))) (-656));
(1097, TRep (PMul (PExp (N 2) (N 4)) (PAdd (N 1) (PMul (PExp (N 2) (N 3)) (PAdd (N 1) (PExp (N 2) (N 2)))))) "(41 * (2 ** 4))");
(1102, TVal (PMul (PExp (N 2) (N 4)) (PAdd (N 1) (PAdd (PExp (N 2) (N 3)) (PMul (PExp (N 2) (N 3)) (PExp (N 2) (N 2)))))) 656);
(1102, TVal (PNeg (PMul (PExp (N 2) (N 4)) (PAdd (N 1) (PAdd (PExp (N 2) (N 3)) (PMul (PExp (N 2) (N 3)) (PExp (N 2) (N 2))))))) (-656));
(1102, TRep (PMul (PExp (N 2) (N 4)) (PAdd (N 1) (PAdd (PExp (N 2) (N 3)) (PMul (PExp (N 2) (N 3)) (PExp (N 2) (N 2)))))) "(41 * (2 ** 4))");
(1107, TVal (PAdd (PExp (N 2) (N 4)) (PAdd (PMul (PExp (N 2) (N 4)) (PExp (N 2) (N 3))) (PMul (PExp (N 2) (N 4)) (PMul (PExp (N 2) (N 3)) (PExp (N 2) (N 2)))))) 656);
(1107, TVal (PNeg (PAdd (PExp (N 2) (N 4)) (PAdd (PMul (PExp (N 2) (N 4)) (PExp (N 2) (N 3))) (PMul (PExp (N 2) (N 4)) (PMul (PExp (N 2) (N 3)) (PExp (N 2) (N 2))))))) (-656));
(1107, TRep (PAdd (PExp (N 2) (N 4)) (PAdd (PMul (PExp (N 2) (N 4)) (PExp (N 2) (N 3))) (PMul (PExp (N 2) (N 4)) (PMul (PExp (N 2) (N 3)) (PExp (N 2) (N 2)))))) "(41 * (2 ** 4))");
(1112, TVal (PAdd (PExp (N 2) (N 4)) (PAdd (PExp (N 2) (N 7)) (PExp (N 2) (N 9)))) 656);
(1112, TVal (PNeg (PAdd (PExp (N 2) (N 4)) (PAdd (PExp (N 2) (N 7)) (PExp (N 2) (N 9))))) (-656));
(1112, TRep (PAdd (PExp (N 2) (N 4)) (PAdd (PExp (N 2) (N 7)) (PExp (N 2) (N 9)))) "(41 * (2 ** 4))");
(1117, TVal (PAdd (PExp (N 2) (N 4)) (PMul (PExp (N 2) (N 4)) (PMul (PExp (N 2) (N 3)) (PAdd (N 1) (PExp (N 2) (N 2)))))) 656);
(1117, TVal (PNeg (PAdd (PExp (N 2) (N 4)) (PMul (PExp (N 2) (N 4)) (PMul (PExp (N 2) (N 3)) (PAdd (N 1) (PExp (N 2) (N 2))))))) (-656));
(1117, TRep (PAdd (PExp (N 2) (N 4)) (PMul (PExp (N 2) (N 4)) (PMul (PExp (N 2) (N 3)) (PAdd (N 1) (PExp (N 2) (N 2)))))) "(41 * (2 ** 4))");
(1122, TVal (PMul (PExp (N 2) (N 3)) (PMul (PMul (PNeg (N 13)) (PExp (N 2) (N 5))) (PAdd (N 1) (PExp (N 2) (N 7))))) (-429312));
(1122, TVal (PNeg (PMul (PExp (N 2) (N 3)) (PMul (PMul (PNeg (N 13)) (PExp (N 2) (N 5))) (PAdd (N 1) (PExp (N 2) (N 7)))))) 429312);
(1122, TRep (PMul (PExp (N 2) (N 3)) (PMul (PMul (PNeg (N 13)) (PExp (N 2) (N 5))) (PAdd (N 1) (PExp (N 2) (N 7))))) "(-1677 * (2 ** 8))");
(1127, TVal (PMul (PMul (N 3) (PExp (N 2) (N 3))) (PExp (N 2) (N 5))) 768);
(1127, TVal (PNeg (PMul (PMul (N 3) (PExp (N 2) (N 3))) (PExp (N 2) (N 5)))) (-768));
(1127, TRep (PMul (PMul (N 3) (PExp (N 2) (N 3))) (PExp (N 2) (N 5))) "(3 * (2 ** 8))");
(1133, TVal (PAdd (PNeg (N 5)) (PMul (N 5) (PExp (N 2) (N 3)))) 35);
(1133, TVal (PNeg (PAdd (PNeg (N 5)) (PMul (N 5) (PExp (N 2) (N 3))))) (-35));
(1133, TRep (PAdd (PNeg (N 5)) (PMul (N 5) (PExp (N 2) (N 3)))) "(-5 + (5 * (2 ** 3)))");
(1138, TVal (PAdd (PNeg (PMul (PExp (N 2) (N 5)) (PAdd (PNeg (N 1)) (PPow (N 2) (PAdd (PNeg (N 5)) (PExp (N 2) (N 5))))))) (PMul (PExp (N 2) (N 5)) (PAdd (PNeg (N 1)) (PPow (N 2) (PAdd (PNeg (N 5)) (PExp (N 2) (N 5))))))) 0);
(1138, TVal (PNeg (PAdd (PNeg (PMul (PExp (N 2) (N 5)) (PAdd (PNeg (N 1)) (PPow (N 2) (PAdd (PNeg (N 5)) (PExp (N 2) (N 5))))))) (PMul (PExp (N 2) (N 5)) (PAdd (PNeg (N 1)) (PPow (N 2) (PAdd (PNeg (N 5)) (PExp (N 2) (N 5)))))))) 0);
(1138, TRep (PAdd (PNeg (PMul (PExp (N 2) (N 5)) (PAdd (PNeg (N 1)) (PPow (N 2) (PAdd (PNeg (N 5)) (PExp (N 2) (N 5))))))) (PMul (PExp (N 2) (N 5)) (PAdd (PNeg (N 1)) (PPow (N 2) (PAdd (PNeg (N 5)) (PExp (N 2) (N 5))))))) "0");
(1144, TVal (PAdd (PMul (PExp (N 2) (N 5)) (PAdd (PNeg (N 1)) (PPow (N 2) (PAdd (PNeg (N 5)) (PExp (N 2) (N 5)))))) (PNeg (PMul (PExp (N 2) (N 5)) (PAdd (PNeg (N 1)) (PPow (N 2) (PAdd (PNeg (N 5)) (PExp (N 2) (N 5)))))))) 0);
(1144, TVal (PNeg (PAdd (PMul (PExp (N 2) (N 5)) (PAdd (PNeg (N 1)) (PPow (N 2) (PAdd (PNeg (N 5)) (PExp (N 2) (N 5)))))) (PNeg (PMul (PExp (N 2) (N 5)) (PAdd (PNeg (N 1)) (PPow (N 2) (PAdd (PNeg (N 5)) (PExp (N 2) (N 5))))))))) 0);
(1144, TRep (PAdd (PMul (PExp (N 2) (N 5)) (PAdd (PNeg (N 1)) (PPow (N 2) (PAdd (PNeg (N 5)) (PExp (N 2) (N 5)))))) (PNeg (PMul (PExp (N 2) (N 5)) (PAdd (PNeg (N 1)) (PPow (N 2) (PAdd (PNeg (N 5)) (PExp (N 2) (N 5)))))))) "0");
(1150, TVal (PDiv (PAdd (PNeg (N 20)) (PMul (PPow (N 2) (PDiv (PAdd (PNeg (N 5)) (PMul (N 13) (PExp (N 2) (N 2)))) (N 3))) (PAdd (N 3) (PMul (N 5) (PPow (N 2) (PDiv (PAdd (PNeg (N 2)) (PAdd (PMul (N 13) (PExp (N 2) (N 2))) (PNeg (PAdd (PNeg (N 5)) (PMul (N 13) (PExp (N 2) (N 2))))))) (N 3))))))) (N 3)) 141988);
(1150, TVal (PNeg (PDiv (PAdd (PNeg (N 20)) (PMul (PPow (N 2) (PDiv (PAdd (PNeg (N 5)) (PMul (N 13) (PExp (N 2) (N 2)))) (N 3))) (PAdd (N 3) (PMul (N 5) (PPow (N 2) (PDiv (PAdd (PNeg (N 2)) (PAdd (PMul (N 13) (PExp (N 2) (N 2))) (PNeg (PAdd (PNeg (N 5)) (PMul (N 13) (PExp (N 2) (N 2))))))) (N 3))))))) (N 3))) (-141988));
(1150, TRep (PDiv (PAdd (PNeg (N 20)) (PMul (PPow (N 2) (PDiv (PAdd (PNeg (N 5)) (PMul (N 13) (PExp (N 2) (N 2)))) (N 3))) (PAdd (N 3) (PMul (N 5) (PPow (N 2) (PDiv (PAdd (PNeg (N 2)) (PAdd (PMul (N 13) (PExp (N 2) (N 2))) (PNeg (PAdd (PNeg (N 5)) (PMul (N 13) (PExp (N 2) (N 2))))))) (N 3))))))) (N 3)) "((-20 + (13 * (2 ** ((-5 + (13 * (2 ** 2))) // 3)))) // 3)");
(1155, TVal (PSub (PAdd (PNeg (N 6)) (PMul (PAdd (N 1) (PExp (N 2) (N 2))) (PPow (N 2) (PExp (N 2) (N 3))))) (PAdd (PNeg (N 6)) (PMul (PAdd (N 1) (PExp (N 2) (N 2))) (PExp (N 2) (N 5))))) 1120);
(1155, TVal (PNeg (PSub (PAdd (PNeg (N 6)) (PMul (PAdd (N 1) (PExp (N 2) (N 2))) (PPow (N 2) (PExp (N 2) (N 3))))) (PAdd (PNeg (N 6)) (PMul (PAdd (N 1) (PExp (N 2) (N 2))) (PExp (N 2) (N 5)))))) (-1120));
(1155, TRep (PSub (PAdd (PNeg (N 6)) (PMul (PAdd (N 1) (PExp (N 2) (N 2))) (PPow (N 2) (PExp (N 2) (N 3))))) (PAdd (PNeg (N 6)) (PMul (PAdd (N 1) (PExp (N 2) (N 2))) (PExp (N 2) (N 5))))) "((2 ** 5) * (-5 + ((1 + (2 ** 2)) * (2 ** (-5 + (2 ** 3))))))");
(1161, TVal (PMul (PMul (PNeg (N 3)) (PExp (N 2) (N 3))) (PAdd (PNeg (N 1)) (PExp (N 2) (N 5)))) (-744));
(1161, TVal (PNeg (PMul (PMul (PNeg (N 3)) (PExp (N 2) (N 3))) (PAdd (PNeg (N 1)) (PExp (N 2) (N 5))))) 744);
(1161, TRep (PMul (PMul (PNeg (N 3)) (PExp (N 2) (N 3))) (PAdd (PNeg (N 1)) (PExp (N 2) (N 5)))) "((2 ** 3) * (3 + (-3 * (2 ** 5))))");
(1166, TVal (PSub (PMul (N 7) (PExp (N 2) (N 3))) (PMul (N 5) (PExp (N 2) (N 3)))) 16);
(1166, TVal (PNeg (PSub (PMul (N 7) (PExp (N 2) (N 3))) (PMul (N 5) (PExp (N 2) (N 3))))) (-16));
(1166, TRep (PSub (PMul (N 7) (PExp (N 2) (N 3))) (PMul (N 5) (PExp (N 2) (N 3)))) "(2 ** 4)");
(1171, TRep (PMul (PExp (N 2) (N 17)) (PAdd (N 5) (PPow (N 2) (PAdd (PNeg (N 17)) (PExp (N 2) (N 19)))))) "((2 ** 17) * (5 + (2 ** (-17 + (2 ** 19)))))");
(1176, TRep (PMul (PExp (N 2) (N 17)) (PPow (N 2) (PAdd (PNeg (N 17)) (PExp (N 2) (N 19))))) "(2 ** (2 ** 19))");
(1181, TRep (PAdd (PMul (PExp (N 2) (N 17)) (N 5)) (PMul (PExp (N 2) (N 17)) (PPow (N 2) (PAdd (PNeg (N 17)) (PExp (N 2) (N 19)))))) "((2 ** 17) * (5 + (2 ** (-17 + (2 ** 19)))))");
(1186, TRep (PAdd (PMul (N 5) (PExp (N 2) (N 17))) (PMul (PPow (N 2) (PAdd (PNeg (N 17)) (PExp (N 2) (N 19)))) (PExp (N 2) (N 17)))) "((2 ** 17) * (5 + (2 ** (-17 + (2 ** 19)))))");
(1191, TRep (PAdd (PMul (N 5) (PExp (N 2) (N 17))) (PMul (PExp (N 2) (N 17)) (PPow (N 2) (PAdd (PNeg (N 17)) (PExp (N 2) (N 19)))))) "((2 ** 17) * (5 + (2 ** (-17 + (2 ** 19)))))");
(1196, TRep (PAdd (PMul (N 5) (PExp (N 2) (N 17))) (PPow (N 2) (PExp (N 2) (N 19)))) "((2 ** 17) * (5 + (2 ** (-17 + (2 ** 19)))))");
(1201, TRep (PMul (PExp (N 3) (N 10)) (PAdd (N 7) (PMul (N 4) (PPow (N 3) (PDiv (PAdd (PNeg (N 67)) (PExp (N 3) (N 11))) (N 8)))))) "((3 ** 10) * (7 + (4 * (3 ** ((-67 + (3 ** 11)) // 8)))))");
(1206, TRep (PAdd (PMul (PExp (N 3) (N 10)) (N 7)) (PMul (PExp (N 3) (N 10)) (PMul (N 4) (PPow (N 3) (PDiv (PAdd (PNeg (N 67)) (PExp (N 3) (N 11))) (N 8)))))) "((3 ** 10) * (7 + (4 * (3 ** ((-67 + (3 ** 11)) // 8)))))");
(1212, TVal (PAdd (PNeg (N 5)) (PMul (N 5) (PExp (N 2) (N 3)))) 35);
(1212, TVal (PNeg (PAdd (PNeg (N 5)) (PMul (N 5) (PExp (N 2) (N 3))))) (-35));
(1212, TRep (PAdd (PNeg (N 5)) (PMul (N 5) (PExp (N 2) (N 3)))) "(-5 + (5 * (2 ** 3)))");
(1217, TVal (PMul (N 5) (PSub (PExp (N 2) (N 3)) (N 1))) 35);
(1217, TVal (PNeg (PMul (N 5) (PSub (PExp (N 2) (N 3)) (N 1)))) (-35));
(1217, TRep (PMul (N 5) (PSub (PExp (N 2) (N 3)) (N 1))) "(-5 + (5 * (2 ** 3)))");
(1222, TVal (PAdd (PExp (N 2) (N 3)) (PExp (N 2) (N 5))) 40);
(1222, TVal (PNeg (PAdd (PExp (N 2) (N 3)) (PExp (N 2) (N 5)))) (-40));
(1222, TRep (PAdd (PExp (N 2) (N 3)) (PExp (N 2) (N 5))) "(5 * (2 ** 3))");
(1227, TVal (PAdd (PNeg (PExp (N 2) (N 3))) (PNeg (PExp (N 2) (N 5)))) (-40));
(1227, TVal (PNeg (PAdd (PNeg (PExp (N 2) (N 3))) (PNeg (PExp (N 2) (N 5))))) 40);
(1227, TRep (PAdd (PNeg (PExp (N 2) (N 3))) (PNeg (PExp (N 2) (N 5)))) "(-5 * (2 ** 3))");
(1232, TVal (PAdd (PNeg (PExp (N 2) (N 3))) (PExp (N 2) (N 5))) 24);
(1232, TVal (PNeg (PAdd (PNeg (PExp (N 2) (N 3))) (PExp (N 2) (N 5)))) (-24));
(1232, TRep (PAdd (PNeg (PExp (N 2) (N 3))) (PExp (N 2) (N 5))) "(3 * (2 ** 3))");
(1238, TVal (PDiv (PMul (N 9) (PPow (N 2) (PAdd (PNeg (N 5)) (PExp (N 2) (N 5))))) (N 3)) 402653184);
(1238, TVal (PNeg (PDiv (PMul (N 9) (PPow (N 2) (PAdd (PNeg (N 5)) (PExp (N 2) (N 5))))) (N 3))) (-402653184));
(1238, TRep (PDiv (PMul (N 9) (PPow (N 2) (PAdd (PNeg (N 5)) (PExp (N 2) (N 5))))) (N 3)) "(3 * (2 ** (-5 + (2 ** 5))))");
(1243, TVal (PDiv (PAdd (N 52) (PMul (N 32) (PExp (N 7) (N 7)))) (N 12)) 2196119);
(1243, TVal (PNeg (PDiv (PAdd (N 52) (PMul (N 32) (PExp (N 7) (N 7)))) (N 12))) (-2196119));
(1243, TRep (PDiv (PAdd (N 52) (PMul (N 32) (PExp (N 7) (N 7)))) (N 12)) "((13 + (8 * (7 ** 7))) // 3)");
(1248, TVal (PDiv (PAdd (PNeg (N 320)) (PMul (N 5) (PExp (N 2) (N 20)))) (N 12)) 436880);
(1248, TVal (PNeg (PDiv (PAdd (PNeg (N 320)) (PMul (N 5) (PExp (N 2) (N 20)))) (N 12))) (-436880));
(1248, TRep (PDiv (PAdd (PNeg (N 320)) (PMul (N 5) (PExp (N 2) (N 20)))) (N 12)) "((-80 + (5 * (2 ** 18))) // 3)");
(1253, TVal (PDiv (PAdd (PNeg (N 160)) (PMul (N 5) (PExp (N 2) (N 19)))) (N 6)) 436880);
(1253, TVal (PNeg (PDiv (PAdd (PNeg (N 160)) (PMul (N 5) (PExp (N 2) (N 19)))) (N 6))) (-436880));
(1253, TRep (PDiv (PAdd (PNeg (N 160)) (PMul (N 5) (PExp (N 2) (N 19)))) (N 6)) "((-80 + (5 * (2 ** 18))) // 3)");
(1258, TVal (PDiv (PAdd (PNeg (N 80)) (PMul (N 5) (PExp (N 2) (N 18)))) (N 3)) 436880);
(1258, TVal (PNeg (PDiv (PAdd (PNeg (N 80)) (PMul (N 5) (PExp (N 2) (N 18)))) (N 3))) (-436880));
(1258, TRep (PDiv (PAdd (PNeg (N 80)) (PMul (N 5) (PExp (N 2) (N 18)))) (N 3)) "((-80 + (5 * (2 ** 18))) // 3)");
(1263, TVal (PMul (PExp (N 2) (N 6)) (PAdd (PNeg (N 5)) (PMul (N 5) (PExp (N 2) (N 14))))) 5242560);
(1263, TVal (PNeg (PMul (PExp (N 2) (N 6)) (PAdd (PNeg (N 5)) (PMul (N 5) (PExp (N 2) (N 14)))))) (-5242560));
(1263, TRep (PMul (PExp (N 2) (N 6)) (PAdd (PNeg (N 5)) (PMul (N 5) (PExp (N 2) (N 14))))) "(81915 * (2 ** 6))");
(1268, TVal (PDiv (PMul (PExp (N 2) (N 6)) (PAdd (PNeg (N 5)) (PMul (N 5) (PExp (N 2) (N 14))))) (N 12)) 436880);
(1268, TVal (PNeg (PDiv (PMul (PExp (N 2) (N 6)) (PAdd (PNeg (N 5)) (PMul (N 5) (PExp (N 2) (N 14))))) (N 12))) (-436880));
(1268, TRep (PDiv (PMul (PExp (N 2) (N 6)) (PAdd (PNeg (N 5)) (PMul (N 5) (PExp (N 2) (N 14))))) (N 12)) "(27305 * (2 ** 4))");
(1273, TVal (PDiv (PAdd (N 13164) (PAdd (PMul (N 70837131) (PExp (N 2) (N 12))) (PDiv (PAdd (PNeg (N 118784)) (PMul (N 29) (PExp (N 2) (N 12)))) (N 9)))) (N 3)) 96716300580);
(1273, TVal (PNeg (PDiv (PAdd (N 13164) (PAdd (PMul (N 70837131) (PExp (N 2) (N 12))) (PDiv (PAdd (PNeg (N 118784)) (PMul (N 29) (PExp (N 2) (N 12)))) (N 9)))) (N 3))) (-96716300580));
(1273, TRep (PDiv (PAdd (N 13164) (PAdd (PMul (N 70837131) (PExp (N 2) (N 12))) (PDiv (PAdd (PNeg (N 118784)) (PMul (N 29) (PExp (N 2) (N 12)))) (N 9)))) (N 3)) "((-308 + (19 * (2 ** 37))) // 27)");
(1278, TVal (PDiv (PAdd (N 384) (PMul (PExp (N 2) (N 5)) (PAdd (N 1) (PMul (N 13) (PExp (N 2) (N 7)))))) (N 24)) 2236);
(1278, TVal (PNeg (PDiv (PAdd (N 384) (PMul (PExp (N 2) (N 5)) (PAdd (N 1) (PMul (N 13) (PExp (N 2) (N 7)))))) (N 24))) (-2236));
(1278, TRep (PDiv (PAdd (N 384) (PMul (PExp (N 2) (N 5)) (PAdd (N 1) (PMul (N 13) (PExp (N 2) (N 7)))))) (N 24)) "(16 + (555 * (2 ** 2)))");
(1283, TVal (PDiv (PAdd (N 2) (PMul (N 23) (PExp (N 6) (N 14)))) (N 10)) 180237577421);
(1283, TVal (PNeg (PDiv (PAdd (N 2) (PMul (N 23) (PExp (N 6) (N 14)))) (N 10))) (-180237577421));
(1283, TRep (PDiv (PAdd (N 2) (PMul (N 23) (PExp (N 6) (N 14)))) (N 10)) "((1 + (69 * (6 ** 13))) // 5)");
(1288, TRep (PDiv (PAdd (N 151) (PMul (N 13) (PExp (N 2) (N 803)))) (N 15)) "((151 + (13 * (2 ** 803))) // 15)");
(1294, TVal (PDiv (PAdd (PNeg (N 1)) (PExp (N 3) (N 3))) (N 2)) 13);
(1294, TVal (PNeg (PDiv (PAdd (PNeg (N 1)) (PExp (N 3) (N 3))) (N 2))) (-13));
(1294, TRep (PDiv (PAdd (PNeg (N 1)) (PExp (N 3) (N 3))) (N 2)) "((-1 + (3 ** 3)) // 2)");
(1299, TVal (PNeg (PDiv (PAdd (PNeg (N 1)) (PExp (N 3) (N 3))) (N 2))) (-13));
(1299, TVal (PNeg (PNeg (PDiv (PAdd (PNeg (N 1)) (PExp (N 3) (N 3))) (N 2)))) 13);
(1299, TRep (PNeg (PDiv (PAdd (PNeg (N 1)) (PExp (N 3) (N 3))) (N 2))) "((1 + -(3 ** 3)) // 2)");
(1304, TVal (PSub (PDiv (PAdd (PNeg (N 1)) (PExp (N 3) (N 3))) (N 2)) (PDiv (PAdd (PNeg (N 1)) (PExp (N 3) (N 2))) (N 2))) 9);
(1304, TVal (PNeg (PSub (PDiv (PAdd (PNeg (N 1)) (PExp (N 3) (N 3))) (N 2)) (PDiv (PAdd (PNeg (N 1)) (PExp (N 3) (N 2))) (N 2)))) (-9));
(1304, TRep (PSub (PDiv (PAdd (PNeg (N 1)) (PExp (N 3) (N 3))) (N 2)) (PDiv (PAdd (PNeg (N 1)) (PExp (N 3) (N 2))) (N 2))) "(3 ** 2)");
(1309, TVal (PSub (PNeg (PDiv (PAdd (PNeg (N 1)) (PExp (N 3) (N 3))) (N 2))) (PNeg (PDiv (PAdd (PNeg (N 1)) (PExp (N 3) (N 2))) (N 2)))) (-9));
(1309, TVal (PNeg (PSub (PNeg (PDiv (PAdd (PNeg (N 1)) (PExp (N 3) (N 3))) (N 2))) (PNeg (PDiv (PAdd (PNeg (N 1)) (PExp (N 3) (N 2))) (N 2))))) 9);
(1309, TRep (PSub (PNeg (PDiv (PAdd (PNeg (N 1)) (PExp (N 3) (N 3))) (N 2))) (PNeg (PDiv (PAdd (PNeg (N 1)) (PExp (N 3) (N 2))) (N 2)))) "-(3 ** 2)");
(1315, TVal (PDiv (PAdd (PNeg (N 1)) (PExp (N 3) (N 3))) (N 2)) 13);
(1315, TVal (PNeg (PDiv (PAdd (PNeg (N 1)) (PExp (N 3) (N 3))) (N 2))) (-13));
(1315, TRep (PDiv (PAdd (PNeg (N 1)) (PExp (N 3) (N 3))) (N 2)) "((-1 + (3 ** 3)) // 2)");
(1320, TVal (PNeg (PDiv (PAdd (PNeg (N 1)) (PExp (N 3) (N 3))) (N 2))) (-13));
(1320, TVal (PNeg (PNeg (PDiv (PAdd (PNeg (N 1)) (PExp (N 3) (N 3))) (N 2)))) 13);
(1320, TRep (PNeg (PDiv (PAdd (PNeg (N 1)) (PExp (N 3) (N 3))) (N 2))) "((1 + -(3 ** 3)) // 2)");
(1325, TVal (PMul (PDiv (PAdd (PNeg (N 1)) (PExp (N 3) (N 3))) (N 2)) (N 3)) 39);
(1325, TVal (PNeg (PMul (PDiv (PAdd (PNeg (N 1)) (PExp (N 3) (N 3))) (N 2)) (N 3))) (-39));
(1325, TRep (PMul (PDiv (PAdd (PNeg (N 1)) (PExp (N 3) (N 3))) (N 2)) (N 3)) "((-3 + (3 ** 4)) // 2)");
(1330, TVal (PMul (PDiv (PAdd (PNeg (N 1)) (PExp (N 3) (N 3))) (N 2)) (PExp (N 3) (N 5))) 3159);
(1330, TVal (PNeg (PMul (PDiv (PAdd (PNeg (N 1)) (PExp (N 3) (N 3))) (N 2)) (PExp (N 3) (N 5)))) (-3159));
(1330, TRep (PMul (PDiv (PAdd (PNeg (N 1)) (PExp (N 3) (N 3))) (N 2)) (PExp (N 3) (N 5))) "(((3 ** 5) * (-1 + (3 ** 3))) // 2)");
(1335, TVal (PMul (PNeg (PDiv (PAdd (PNeg (N 1)) (PExp (N 3) (N 3))) (N 2))) (PExp (N 3) (N 5))) (-3159));
(1335, TVal (PNeg (PMul (PNeg (PDiv (PAdd (PNeg (N 1)) (PExp (N 3) (N 3))) (N 2))) (PExp (N 3) (N 5)))) 3159);
(1335, TRep (PMul (PNeg (PDiv (PAdd (PNeg (N 1)) (PExp (N 3) (N 3))) (N 2))) (PExp (N 3) (N 5))) "(((3 ** 5) * (1 + -(3 ** 3))) // 2)");
(1340, TVal (PNeg (PMul (PDiv (PAdd (PNeg (N 1)) (PExp (N 3) (N 3))) (N 2)) (PExp (N 3) (N 5)))) (-3159));
(1340, TVal (PNeg (PNeg (PMul (PDiv (PAdd (PNeg (N 1)) (PExp (N 3) (N 3))) (N 2)) (PExp (N 3) (N 5))))) 3159);
(1340, TRep (PNeg (PMul (PDiv (PAdd (PNeg (N 1)) (PExp (N 3) (N 3))) (N 2)) (PExp (N 3) (N 5)))) "(-13 * (3 ** 5))");
(1345, TVal (PNeg (PMul (PDiv (PAdd (N 1) (PExp (N 3) (N 3))) (N 2)) (PExp (N 3) (N 5)))) (-3402));
(1345, TVal (PNeg (PNeg (PMul (PDiv (PAdd (N 1) (PExp (N 3) (N 3))) (N 2)) (PExp (N 3) (N 5))))) 3402);
(1345, TRep (PNeg (PMul (PDiv (PAdd (N 1) (PExp (N 3) (N 3))) (N 2)) (PExp (N 3) (N 5)))) "(-14 * (3 ** 5))");
(1350, TVal (PNeg (PDiv (PMul (PAdd (N 1) (PExp (N 3) (N 3))) (PExp (N 3) (N 5))) (N 2))) (-3402));
(1350, TVal (PNeg (PNeg (PDiv (PMul (PAdd (N 1) (PExp (N 3) (N 3))) (PExp (N 3) (N 5))) (N 2)))) 3402);
(1350, TRep (PNeg (PDiv (PMul (PAdd (N 1) (PExp (N 3) (N 3))) (PExp (N 3) (N 5))) (N 2))) "(-14 * (3 ** 5))");
(1355, TVal (PNeg (PDiv (PAdd (PMul (N 1) (PExp (N 3) (N 5))) (PMul (PExp (N 3) (N 3)) (PExp (N 3) (N 5)))) (N 2))) (-3402));
(1355, TVal (PNeg (PNeg (PDiv (PAdd (PMul (N 1) (PExp (N 3) (N 5))) (PMul (PExp (N 3) (N 3)) (PExp (N 3) (N 5)))) (N 2)))) 3402);
(1355, TRep (PNeg (PDiv (PAdd (PMul (N 1) (PExp (N 3) (N 5))) (PMul (PExp (N 3) (N 3)) (PExp (N 3) (N 5)))) (N 2))) "(-14 * (3 ** 5))");
(1360, TVal (PNeg (PDiv (PAdd (PExp (N 3) (N 5)) (PExp (N 3) (N 8))) (N 2))) (-3402));
(1360, TVal (PNeg (PNeg (PDiv (PAdd (PExp (N 3) (N 5)) (PExp (N 3) (N 8))) (N 2)))) 3402);
(1360, TRep (PNeg (PDiv (PAdd (PExp (N 3) (N 5)) (PExp (N 3) (N 8))) (N 2))) "(-14 * (3 ** 5))");
(1365, TVal (PNeg (PMul (PExp (N 3) (N 5)) (PAdd (N 1) (PExp (N 3) (N 3))))) (-6804));
(1365, TVal (PNeg (PNeg (PMul (PExp (N 3) (N 5)) (PAdd (N 1) (PExp (N 3) (N 3)))))) 6804);
(1365, TRep (PNeg (PMul (PExp (N 3) (N 5)) (PAdd (N 1) (PExp (N 3) (N 3))))) "(-28 * (3 ** 5))");
(1370, TVal (PMul (PNeg (PExp (N 3) (N 5))) (PAdd (N 1) (PExp (N 3) (N 3)))) (-6804));
(1370, TVal (PNeg (PMul (PNeg (PExp (N 3) (N 5))) (PAdd (N 1) (PExp (N 3) (N 3))))) 6804);
(1370, TRep (PMul (PNeg (PExp (N 3) (N 5))) (PAdd (N 1) (PExp (N 3) (N 3)))) "(-28 * (3 ** 5))");
(1375, TVal (PMul (PExp (N 3) (N 5)) (PNeg (PAdd (N 1) (PExp (N 3) (N 3))))) (-6804));
(1375, TVal (PNeg (PMul (PExp (N 3) (N 5)) (PNeg (PAdd (N 1) (PExp (N 3) (N 3)))))) 6804);
(1375, TRep (PMul (PExp (N 3) (N 5)) (PNeg (PAdd (N 1) (PExp (N 3) (N 3))))) "(-28 * (3 ** 5))");
(1380, TVal (PMul (PExp (N 3) (N 5)) (PAdd (PNeg (N 1)) (PNeg (PExp (N 3) (N 3))))) (-6804));
(1380, TVal (PNeg (PMul (PExp (N 3) (N 5)) (PAdd (PNeg (N 1)) (PNeg (PExp (N 3) (N 3)))))) 6804);
(1380, TRep (PMul (PExp (N 3) (N 5)) (PAdd (PNeg (N 1)) (PNeg (PExp (N 3) (N 3))))) "(-28 * (3 ** 5))");
(1385, TRep (PAdd (PPow (N 3) (PDiv (PAdd (N 5) (PExp (N 3) (N 11))) (N 8))) (PDiv (PAdd (PNeg (N 21)) (PMul (N 7) (PPow (N 3) (PDiv (PAdd (N 5) (PExp (N 3) (N 11))) (N 8))))) (N 2))) "((-21 + (3 ** ((21 + (3 ** 11)) // 8))) // 2)");
(1391, TMod (PExp (N 3) (N 7)) 128 11);
(1397, TVal (PAdd (PNeg (N 46)) (PExp (N 2) (N 17))) 131026);
(1397, TVal (PNeg (PAdd (PNeg (N 46)) (PExp (N 2) (N 17)))) (-131026));
(1397, TRep (PAdd (PNeg (N 46)) (PExp (N 2) (N 17))) "(-46 + (2 ** 17))");
(1402, TVal (PAdd (PNeg (PAdd (N 14) (PExp (N 2) (N 5)))) (PExp (N 2) (N 17))) 131026);
(1402, TVal (PNeg (PAdd (PNeg (PAdd (N 14) (PExp (N 2) (N 5)))) (PExp (N 2) (N 17)))) (-131026));
(1402, TRep (PAdd (PNeg (PAdd (N 14) (PExp (N 2) (N 5)))) (PExp (N 2) (N 17))) "(-14 + (4095 * (2 ** 5)))");
(1407, TVal (PAdd (PNeg (N 46)) (PMul (N 13) (PExp (N 2) (N 17)))) 1703890);
(1407, TVal (PNeg (PAdd (PNeg (N 46)) (PMul (N 13) (PExp (N 2) (N 17))))) (-1703890));
(1407, TRep (PAdd (PNeg (N 46)) (PMul (N 13) (PExp (N 2) (N 17)))) "(-46 + (13 * (2 ** 17)))");
(1412, TVal (PAdd (PNeg (PAdd (N 14) (PExp (N 2) (N 5)))) (PMul (N 13) (PExp (N 2) (N 17)))) 1703890);
(1412, TVal (PNeg (PAdd (PNeg (PAdd (N 14) (PExp (N 2) (N 5)))) (PMul (N 13) (PExp (N 2) (N 17))))) (-1703890));
(1412, TRep (PAdd (PNeg (PAdd (N 14) (PExp (N 2) (N 5)))) (PMul (N 13) (PExp (N 2) (N 17)))) "(-14 + (53247 * (2 ** 5)))");
(1417, TVal (PSub (PMul (PExp (N 2) (N 3)) (PAdd (N 1) (PPow (N 2) (PAdd (N 5) (PExp (N 2) (N 3)))))) (PExp (N 2) (N 3))) 65536);
(1417, TVal (PNeg (PSub (PMul (PExp (N 2) (N 3)) (PAdd (N 1) (PPow (N 2) (PAdd (N 5) (PExp (N 2) (N 3)))))) (PExp (N 2) (N 3)))) (-65536));
(1417, TRep (PSub (PMul (PExp (N 2) (N 3)) (PAdd (N 1) (PPow (N 2) (PAdd (N 5) (PExp (N 2) (N 3)))))) (PExp (N 2) (N 3))) "(2 ** (8 + (2 ** 3)))");
(1422, TVal (PAdd (PPow (N 2) (PMul (N 3) (PExp (N 2) (N 3)))) (PMul (N 3) (PPow (N 2) (PAdd (N 10) (PExp (N 2) (N 3)))))) 17563648);
(1422, TVal (PNeg (PAdd (PPow (N 2) (PMul (N 3) (PExp (N 2) (N 3)))) (PMul (N 3) (PPow (N 2) (PAdd (N 10) (PExp (N 2) (N 3))))))) (-17563648));
(1422, TRep (PAdd (PPow (N 2) (PMul (N 3) (PExp (N 2) (N 3)))) (PMul (N 3) (PPow (N 2) (PAdd (N 10) (PExp (N 2) (N 3)))))) "((2 ** (3 * (2 ** 3))) + (3 * (2 ** (10 + (2 ** 3)))))");
(1427, TVal (PAdd (N 351) (PMul (N 65) (PPow (N 2) (PExp (N 2) (N 3))))) 16991);
(1427, TVal (PNeg (PAdd (N 351) (PMul (N 65) (PPow (N 2) (PExp (N 2) (N 3)))))) (-16991));
(1427, TRep (PAdd (N 351) (PMul (N 65) (PPow (N 2) (PExp (N 2) (N 3))))) "(351 + (65 * (2 ** (2 ** 3))))");
(1432, TRep (PAdd (PAdd (N 1) (PPow (N 2) (PAdd (PNeg (N 1)) (PExp (N 2) (N 31))))) (N 0)) "(1 + (2 ** (-1 + (2 ** 31))))");
(1437, TRep (PSub (PAdd (N 1) (PPow (N 2) (PAdd (PNeg (N 1)) (PExp (N 2) (N 31))))) (N 0)) "(1 + (2 ** (-1 + (2 ** 31))))");
(1442, TVal (PAdd (PMul (N 5) (PPow (N 2) (PDiv (PAdd (N 1) (PExp (N 2) (N 3))) (N 3)))) (PMul (PNeg (N 5)) (PPow (N 2) (PPow (N 2) (PDiv (PAdd (PNeg (N 1)) (PExp (N 2) (N 4))) (N 3)))))) (-21474836440));
(1442, TVal (PNeg (PAdd (PMul (N 5) (PPow (N 2) (PDiv (PAdd (N 1) (PExp (N 2) (N 3))) (N 3)))) (PMul (PNeg (N 5)) (PPow (N 2) (PPow (N 2) (PDiv (PAdd (PNeg (N 1)) (PExp (N 2) (N 4))) (N 3))))))) 21474836440);
(1442, TRep (PAdd (PMul (N 5) (PPow (N 2) (PDiv (PAdd (N 1) (PExp (N 2) (N 3))) (N 3)))) (PMul (PNeg (N 5)) (PPow (N 2) (PPow (N 2) (PDiv (PAdd (PNeg (N 1)) (PExp (N 2) (N 4))) (N 3)))))) "((5 * (2 ** ((1 + (2 ** 3)) // 3))) + (-5 * (2 ** (2 ** ((-1 + (2 ** 4)) // 3)))))");
(1447, TRep (PAdd (PMul (PExp (N 3) (N 5)) (PAdd (PNeg (N 243)) (PPow (N 3) (PExp (N 3) (N 5))))) (PPow (N 3) (PExp (N 3) (N 5)))) "((3 ** 10) * (-1 + (244 * (3 ** (-10 + (3 ** 5))))))");
(1452, TRep (PAdd (PPow (N 3) (PExp (N 3) (N 5))) (PMul (PPow (N 3) (PAdd (PMul (PExp (N 3) (N 5)) (PAdd (PNeg (N 1)) (PPow (N 3) (PExp (N 3) (N 5))))) (PNeg (PMul (PExp (N 3) (N 5)) (PAdd (PNeg (N 1)) (PExp (N 3) (N 5))))))) (PAdd (N 1) (PExp (N 3) (N 5))))) "((3 ** (3 ** 5)) + (244 * (3 ** ((3 ** 10) * (-1 + (3 ** (-5 + (3 ** 5))))))))");
(1457, TRep (PAdd (PAdd (PNeg (N 20)) (PMul (N 13) (PPow (N 2) (PDiv (PAdd (PNeg (N 5)) (PMul (N 13) (PExp (N 2) (N 553)))) (N 3))))) (PAdd (PMul (PExp (N 2) (N 552)) (PAdd (N 117) (PMul (N 117) (PPow (N 2) (PExp (N 2) (N 553)))))) (PMul (N 117) (PPow (N 2) (PDiv (PAdd (PNeg (N 8)) (PMul (N 13) (PExp (N 2) (N 553)))) (N 3)))))) "(-20 + ((13 * (2 ** ((-5 + (13 * (2 ** 553))) // 3))) + (((2 ** 552) * (117 + (117 * (2 ** (2 ** 553))))) + (117 * (2 ** ((-8 + (13 * (2 ** 553))) // 3))))))");
(1462, TRep (PAdd (PPow (N 2) (PMul (PPow (N 2) (PExp (N 2) (N 65536))) (PAdd (PNeg (N 1)) (PPow (N 2) (PMul (PExp (N 2) (N 65536)) (PAdd (PNeg (N 1)) (PPow (N 2) (PAdd (PNeg (N 65536)) (PPow (N 2) (PExp (N 2) (N 65536))))))))))) (PPow (N 2) (PAdd (PNeg (N 1)) (PMul (PPow (N 2) (PExp (N 2) (N 65536))) (PAdd (PNeg (N 1)) (PPow (N 2) (PMul (PExp (N 2) (N 65536)) (PAdd (PNeg (N 1)) (PPow (N 2) (PAdd (PNeg (N 65536)) (PPow (N 2) (PExp (N 2) (N 65536))))))))))))) "((2 ** ((2 ** (2 ** 65536)) * (-1 + (2 ** ((2 ** 65536) * (-1 + (2 ** (-65536 + (2 ** (2 ** 65536)))))))))) + (2 ** (-1 + ((2 ** (2 ** 65536)) * (-1 + (2 ** ((2 ** 65536) * (-1 + (2 ** (-65536 + (2 ** (2 ** 65536))))))))))))");
(1506, TRep (PMul (N 130) (PPow (N 2) (PDiv (PAdd (N 61) (PMul (N 13) (PExp (N 2) (N 803)))) (N 15)))) "(65 * (2 ** ((76 + (13 * (2 ** 803))) // 15)))");
(1511, TRep (PMul (PExp (N 2) (N 801)) (PAdd (N 351) (PMul (N 65) (PPow (N 2) (PDiv (PAdd (PNeg (N 11954)) (PMul (N 13) (PExp (N 2) (N 803)))) (N 15)))))) "((2 ** 801) * (351 + (65 * (2 ** ((-11954 + (13 * (2 ** 803))) // 15)))))");
(1516, TRep (PMul (PExp (N 2) (N 801)) (PMul (N 65) (PPow (N 2) (PDiv (PAdd (PNeg (N 11954)) (PMul (N 13) (PExp (N 2) (N 803)))) (N 15))))) "(65 * (2 ** ((61 + (13 * (2 ** 803))) // 15)))");
(1521, TRep (PAdd (PMul (PExp (N 2) (N 801)) (N 351)) (PMul (N 65) (PPow (N 2) (PDiv (PAdd (N 61) (PMul (N 13) (PExp (N 2) (N 803)))) (N 15))))) "((2 ** 801) * (351 + (65 * (2 ** ((-11954 + (13 * (2 ** 803))) // 15)))))");
(1526, TRep (PAdd (PAdd (N 253398) (PMul (N 130) (PPow (N 2) (PDiv (PAdd (N 61) (PMul (N 13) (PExp (N 2) (N 803)))) (N 15))))) (PMul (PExp (N 2) (N 801)) (PAdd (N 351) (PMul (N 65) (PPow (N 2) (PDiv (PAdd (PNeg (N 11954)) (PMul (N 13) (PExp (N 2) (N 803)))) (N 15))))))) "(253398 + ((65 * (2 ** ((76 + (13 * (2 ** 803))) // 15))) + ((2 ** 801) * (351 + (65 * (2 ** ((-11954 + (13 * (2 ** 803))) // 15)))))))");
(1531, TRep (PAdd (PMul (N 65) (PPow (N 2) (PDiv (PAdd (N 76) (PMul (N 13) (PExp (N 2) (N 803)))) (N 15)))) (PMul (PExp (N 2) (N 801)) (PAdd (N 351) (PMul (N 65) (PPow (N 2) (PDiv (PAdd (PNeg (N 11954)) (PMul (N 13) (PExp (N 2) (N 803)))) (N 15))))))) "((2 ** 801) * (351 + (195 * (2 ** ((-11954 + (13 * (2 ** 803))) // 15)))))");
(1536, TRep (PDiv (PAdd (PMul (N 65) (PPow (N 2) (PDiv (PAdd (N 76) (PMul (N 13) (PExp (N 2) (N 803)))) (N 15)))) (PMul (PExp (N 2) (N 801)) (PAdd (N 351) (PMul (N 65) (PPow (N 2) (PDiv (PAdd (PNeg (N 11954)) (PMul (N 13) (PExp (N 2) (N 803)))) (N 15))))))) (N 3)) "((2 ** 801) * (117 + (65 * (2 ** ((-11954 + (13 * (2 ** 803))) // 15)))))");
(1541, TRep (PAdd (N 84466) (PDiv (PAdd (PMul (N 65) (PPow (N 2) (PDiv (PAdd (N 76) (PMul (N 13) (PExp (N 2) (N 803)))) (N 15)))) (PMul (PExp (N 2) (N 801)) (PAdd (N 351) (PMul (N 65) (PPow (N 2) (PDiv (PAdd (PNeg (N 11954)) (PMul (N 13) (PExp (N 2) (N 803)))) (N 15))))))) (N 3))) "(84466 + ((2 ** 801) * (117 + (65 * (2 ** ((-11954 + (13 * (2 ** 803))) // 15))))))");
(1547, TVal (PDiv (PExp (N 2) (N 10)) (PExp (N 2) (N 9))) 2);
(1547, TVal (PNeg (PDiv (PExp (N 2) (N 10)) (PExp (N 2) (N 9)))) (-2));
(1547, TRep (PDiv (PExp (N 2) (N 10)) (PExp (N 2) (N 9))) "2");
(1552, TVal (PDiv (PExp (N 2) (N 13)) (PExp (N 2) (N 10))) 8);
(1552, TVal (PNeg (PDiv (PExp (N 2) (N 13)) (PExp (N 2) (N 10)))) (-8));
(1552, TRep (PDiv (PExp (N 2) (N 13)) (PExp (N 2) (N 10))) "(2 ** 3)");
(1557, TVal (PDiv (PPow (N 2) (PExp (N 2) (N 7))) (PExp (N 2) (N 10))) 332306998946228968225951765070086144);
(1557, TVal (PNeg (PDiv (PPow (N 2) (PExp (N 2) (N 7))) (PExp (N 2) (N 10)))) (-332306998946228968225951765070086144));
(1557, TRep (PDiv (PPow (N 2) (PExp (N 2) (N 7))) (PExp (N 2) (N 10))) "(2 ** (-10 + (2 ** 7)))");
(1562, TVal (PDiv (PPow (N 2) (PExp (N 2) (N 7))) (PPow (N 2) (PExp (N 2) (N 5)))) 79228162514264337593543950336);
(1562, TVal (PNeg (PDiv (PPow (N 2) (PExp (N 2) (N 7))) (PPow (N 2) (PExp (N 2) (N 5))))) (-79228162514264337593543950336));
(1562, TRep (PDiv (PPow (N 2) (PExp (N 2) (N 7))) (PPow (N 2) (PExp (N 2) (N 5)))) "(2 ** (3 * (2 ** 5)))");
(1568, TRep (PMul (PPow (N 2) (PAdd (PNeg (N 259)) (PExp (N 2) (N 258)))) (PAdd (PPow (N 2) (PMul (PExp (N 2) (N 258)) (PAdd (PNeg (N 1)) (PPow (N 2) (PAdd (PNeg (N 258)) (PExp (N 2) (N 258))))))) (PPow (N 2) (PAdd (N 2) (PMul (PExp (N 2) (N 258)) (PAdd (PNeg (N 1)) (PPow (N 2) (PAdd (PNeg (N 258)) (PExp (N 2) (N 258)))))))))) "(5 * (2 ** (-259 + (2 ** (2 ** 258)))))");
(1580, TRep (PAdd (PAdd (N 253398) (PMul (N 130) (PPow (N 2) (PDiv (PAdd (N 61) (PMul (N 13) (PExp (N 2) (N 803)))) (N 15))))) (PMul (PExp (N 2) (N 801)) (PAdd (N 351) (PMul (N 65) (PPow (N 2) (PDiv (PAdd (PNeg (N 11954)) (PMul (N 13) (PExp (N 2) (N 803)))) (N 15))))))) "(253398 + ((65 * (2 ** ((76 + (13 * (2 ** 803))) // 15))) + ((2 ** 801) * (351 + (65 * (2 ** ((-11954 + (13 * (2 ** 803))) // 15)))))))");
(1589, TRep (PAdd (N 84466) (PDiv (PAdd (PMul (N 65) (PPow (N 2) (PDiv (PAdd (N 76) (PMul (N 13) (PExp (N 2) (N 803)))) (N 15)))) (PMul (PExp (N 2) (N 801)) (PAdd (N 351) (PMul (N 65) (PPow (N 2) (PDiv (PAdd (PNeg (N 11954)) (PMul (N 13) (PExp (N 2) (N 803)))) (N 15))))))) (N 3))) "(84466 + ((2 ** 801) * (117 + (65 * (2 ** ((-11954 + (13 * (2 ** 803))) // 15))))))");
(1601, TRep (PDiv (PAdd (PMul (N 65) (PPow (N 2) (PDiv (PAdd (N 76) (PMul (N 13) (PExp (N 2) (N 803)))) (N 15)))) (PMul (PExp (N 2) (N 801)) (PAdd (N 351) (PMul (N 65) (PPow (N 2) (PDiv (PAdd (PNeg (N 11954)) (PMul (N 13) (PExp (N 2) (N 803)))) (N 15))))))) (N 3)) "((2 ** 801) * (117 + (65 * (2 ** ((-11954 + (13 * (2 ** 803))) // 15)))))");
(1611, TRep (PAdd (PMul (N 351) (PExp (N 2) (N 801))) (PMul (PExp (N 2) (N 801)) (PMul (N 65) (PPow (N 2) (PDiv (PAdd (PNeg (N 11954)) (PMul (N 13) (PExp (N 2) (N 803)))) (N 15)))))) "((2 ** 801) * (351 + (65 * (2 ** ((-11954 + (13 * (2 ** 803))) // 15)))))");
(1617, TRep (PPow (N 2) (PDiv (PAdd (PNeg (N 50)) (PMul (N 99) (PExp (N 2) (N 7236)))) (N 7))) "(2 ** ((-50 + (99 * (2 ** 7236))) // 7))");
(1622, TModErr (PPow (N 2) (PDiv (PAdd (PNeg (N 50)) (PMul (N 99) (PExp (N 2) (N 7236)))) (N 7))) 14);
(1628, TRep (PPow (N 2) (PDiv (PAdd (PNeg (N 17)) (PMul (N 61) (PExp (N 2) (N 71)))) (N 9))) "(2 ** ((-17 + (61 * (2 ** 71))) // 9))");
(1633, TModErr (PPow (N 2) (PDiv (PAdd (PNeg (N 17)) (PMul (N 61) (PExp (N 2) (N 71)))) (N 9))) 4374)].

Example num_tests : map fst (filter (fun t => negb (run (snd t))) tests) = [] /\ length tests = 989%nat.
Proof. vm_compute. auto. Qed.
