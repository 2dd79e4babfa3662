(** * The project's own test cases

    Written by tools/kit.py from /repo/test_yup.py: of every case the source, the
    tree its authors expect and, where given, the text they expect. *)
From Coq Require Import List NArith ZArith String.
From Verif Require Import PyStr Ast.
Import ListNotations.
Open Scope list_scope.
Open Scope Z_scope.

Definition parse_01_source : text := (lit "
while( ($m::app) > 10 ) {
    /* cycle ($app) */
}
").
Definition parse_01_tree : node :=
  (NText [(NPlain (raw (lit "
while( ")) IndNone false); (NApply (NVar (RList [(raw (lit "m"))]) (raw (lit "app"))) [] [] None 0); (NPlain (raw (lit " > 10 ) {
    /* cycle ")) IndNone false); (NApply (NVar (RList []) (raw (lit "app"))) [] [] None 0); (NPlain (raw (lit " */
}
")) IndNone false)] 0 0).

Definition parse_02_source : text := (lit "
($set (a b c) (($e) 'hi!' ($q u)))($_123)/**/($set a 10 \set) // q...
($! Comment into the TEXT(). )
").
Definition parse_02_tree : node :=
  (NText [(NPlain (raw (lit "
")) IndNone false); (NSet (LList [(raw (lit "a")); (raw (lit "b")); (raw (lit "c"))]) (NList [(NApply (NVar (RList []) (raw (lit "e"))) [] [] None 0); (NStr (raw (lit "'hi!'"))); (NApply (NVar (RList []) (raw (lit "q"))) [(NVar (RList []) (raw (lit "u")))] [] None 0)])); (NApply (NVar (RList []) (raw (lit "_123"))) [] [] None 0); (NPlain (raw (lit "/**/")) IndNone false); (NSet (LAtom (raw (lit "a"))) (NInt (10))); (NPlain (raw (lit " // q...
")) IndNone false); NComment; (NPlain (raw (lit "
")) IndNone false)] 0 0).

Definition parse_03_source : text := (lit "
// fn()!
($u1::u2::u3::fn \p1 par1 &par2 \p3 par3 \fn)
($fn2 \p1 a \b.(c) \p3 \d.\e.($d e) \fn2)
").
Definition parse_03_tree : node :=
  (NText [(NPlain (raw (lit "
// fn()!
")) IndNone false); (NApply (NVar (RList [(raw (lit "u1")); (raw (lit "u2")); (raw (lit "u3"))]) (raw (lit "fn"))) [(NVar RLate (raw (lit "par2")))] [((raw (lit "p1")), (NVar (RList []) (raw (lit "par1")))); ((raw (lit "p3")), (NVar (RList []) (raw (lit "par3"))))] None 0); (NPlain (raw (lit "
")) IndNone false); (NApply (NVar (RList []) (raw (lit "fn2"))) [(NLambda [([], (raw (lit "b")), NNone)] (NList [(NVar (RList []) (raw (lit "c")))]))] [((raw (lit "p1")), (NVar (RList []) (raw (lit "a")))); ((raw (lit "p3")), (NLambda [([], (raw (lit "d")), NNone); ([], (raw (lit "e")), NNone)] (NApply (NVar (RList []) (raw (lit "d"))) [(NVar (RList []) (raw (lit "e")))] [] None 0)))] None 0); (NPlain (raw (lit "
")) IndNone false)] 0 0).

Definition parse_04_source : text := (lit "
do {($fn \code ]
    abc( d ) + ($ee f) * 10
[[(gh[i[j]] == k)""]""]
($code l(m(n(o(')'))))) ]p[""]]]""]\[\fn)} while( 1 )
($fn ]
// eol:)
\[)
($emit l)($emit l\n.(n)\emit)
").
Definition parse_04_tree : node :=
  (NText [(NPlain (raw (lit "
do {")) IndNone false); (NApply (NVar (RList []) (raw (lit "fn"))) [(NText [(NPlain (raw (lit "(gh[i[j]] == k)")) IndNone false); (NStr (raw (lit """]""")))] 0 0); (NText [(NPlain (raw (lit " l(m(n(o(")) IndNone false); (NStr (raw (lit "')'"))); (NPlain (raw (lit "))))")) IndNone false)] 0 0); (NText [(NPlain (raw (lit "p[")) IndNone false); (NStr (raw (lit """]]]"""))); (NPlain (raw (lit "]")) IndNone false)] 0 0)] [((raw (lit "code")), (NText [(NPlain (raw (lit "    abc( d ) + ")) IndNone false); (NApply (NVar (RList []) (raw (lit "ee"))) [(NVar (RList []) (raw (lit "f")))] [] None 0); (NPlain (raw (lit " * 10")) IndNone false)] 0 0))] None 0); (NPlain (raw (lit "} while( 1 )
")) IndNone false); (NApply (NVar (RList []) (raw (lit "fn"))) [(NText [(NRemark (raw (lit "// eol:)")))] 0 0)] [] None 0); (NPlain (raw (lit "
")) IndNone false); (NEmit (RList []) (raw (lit "l")) NNone); (NEmit (RList []) (raw (lit "l")) (NLambda [([], (raw (lit "n")), NNone)] (NList [(NVar (RList []) (raw (lit "n")))]))); (NPlain (raw (lit "
")) IndNone false)] 0 0).

Definition parse_05_source : text := (lit "
($ \p.\pp1..\pp2..\pp:abc.\...\ppp1..\ppp.\pppp.($f p1) *(1 a b))
($set lst (pa pb pc))
($ \(lst).($f2))
").
Definition parse_05_tree : node :=
  (NText [(NPlain (raw (lit "
")) IndNone false); (NApply (NLambda [([], (raw (lit "p")), NNone); ([(raw (lit "pp1")); (raw (lit "pp2"))], (raw (lit "pp")), (NVar (RList []) (raw (lit "abc")))); ([], (raw (lit "...")), NNone); ([(raw (lit "ppp1"))], (raw (lit "ppp")), NNone); ([], (raw (lit "pppp")), NNone)] (NApply (NVar (RList []) (raw (lit "f"))) [(NVar (RList []) (raw (lit "p1")))] [] None 0)) [(NEmbed (NList [(NInt (1)); (NVar (RList []) (raw (lit "a"))); (NVar (RList []) (raw (lit "b")))]))] [] None 0); (NPlain (raw (lit "
")) IndNone false); (NSet (LAtom (raw (lit "lst"))) (NList [(NVar (RList []) (raw (lit "pa"))); (NVar (RList []) (raw (lit "pb"))); (NVar (RList []) (raw (lit "pc")))])); (NPlain (raw (lit "
")) IndNone false); (NApply (NLambdaV (RList []) (raw (lit "lst")) (NApply (NVar (RList []) (raw (lit "f2"))) [] [] None 0)) [] [] None 0); (NPlain (raw (lit "
")) IndNone false)] 0 0).

Definition parse_06_source : text := (lit "
($l (-0.123 -48 0o77 ""\\Hello \""world\""!\n"" 3.14e-29 0xFF1 *a *() ($b) '\x000' '\'' '\n' \c.(d)))
").
Definition parse_06_tree : node :=
  (NText [(NPlain (raw (lit "
")) IndNone false); (NApply (NVar (RList []) (raw (lit "l"))) [(NList [(NFloat (lit "-0.123")); (NInt (-48)); (NInt (63)); (NStr (raw (lit """\\Hello \""world\""!\n"""))); (NFloat (lit "3.14e-29")); (NInt (4081)); (NEmbed (NVar (RList []) (raw (lit "a")))); (NEmbed (NList [])); (NApply (NVar (RList []) (raw (lit "b"))) [] [] None 0); (NStr (raw (lit "'\x000'"))); (NStr (raw (lit "'\''"))); (NStr (raw (lit "'\n'"))); (NLambda [([], (raw (lit "c")), NNone)] (NList [(NVar (RList []) (raw (lit "d")))]))])] [] None 0); (NPlain (raw (lit "
")) IndNone false)] 0 0).

Definition parse_07_source : text := (lit "
($z {pi + e/2 - ($w) + len(""hi{!}"")} ($quoteHello()))
($macro m1 (a b) ($add a b))
($macro m2 () ]printf(""Hello %s!"", ""Nike"");[/*HACK:]*/)
($$ ""(${f} {0} {1})"" 2 3 \f sub)
($$ a ""yes"" ""no"")
").
Definition parse_07_tree : node :=
  (NText [(NPlain (raw (lit "
")) IndNone false); (NApply (NVar (RList []) (raw (lit "z"))) [(NInfix (NText [(NPlain (raw (lit "pi + e/2 - ")) IndNone false); (NApply (NVar (RList []) (raw (lit "w"))) [] [] None 0); (NPlain (raw (lit " + len(")) IndNone false); (NStr (raw (lit """hi{!}"""))); (NPlain (raw (lit ")")) IndNone false)] 0 0) None 0); (NStr (raw (lit "Hello()")))] [] None 0); (NPlain (raw (lit "
")) IndNone false); (NMacro (raw (lit "m1")) [(raw (lit "a")); (raw (lit "b"))] (lit " ($add a b)")); (NPlain (raw (lit "
")) IndNone false); (NMacro (raw (lit "m2")) [] (lit " ]printf(""Hello %s!"", ""Nike"");[/*HACK:]*/")); (NPlain (raw (lit "
")) IndNone false); (NEval (NApply (NStr (raw (lit """(${f} {0} {1})"""))) [(NInt (2)); (NInt (3))] [((raw (lit "f")), (NVar (RList []) (raw (lit "sub"))))] None 0) None None); (NPlain (raw (lit "
")) IndNone false); (NEval (NApply (NVar (RList []) (raw (lit "a"))) [(NStr (raw (lit """yes"""))); (NStr (raw (lit """no""")))] [] None 0) None None); (NPlain (raw (lit "
")) IndNone false)] 0 0).

Definition parse_08_source : text := (lit "
($f 1L ? c | 2 ($e) ?(2) d ?($f) | dd?1 | ddd ?'2' | dddd)
").
Definition parse_08_tree : node :=
  (NText [(NPlain (raw (lit "
")) IndNone false); (NApply (NVar (RList []) (raw (lit "f"))) [(NCond (NVar (RList []) (raw (lit "c"))) (NInt (1)) (NInt (2))); (NCond (NList [(NInt (2))]) (NApply (NVar (RList []) (raw (lit "e"))) [] [] None 0) NNone); (NCond (NApply (NVar (RList []) (raw (lit "f"))) [] [] None 0) (NVar (RList []) (raw (lit "d"))) (NCond (NInt (1)) (NVar (RList []) (raw (lit "dd"))) (NCond (NStr (raw (lit "'2'"))) (NVar (RList []) (raw (lit "ddd"))) (NVar (RList []) (raw (lit "dddd"))))))] [] None 0); (NPlain (raw (lit "
")) IndNone false)] 0 0).

Definition eval_01_source : text := (lit "
/*  Hello world! */
int main()
{
    // Entry point...
    printf( ""Hello world!"" );

    return 1;
}
").
Definition eval_01_tree : node :=
  (NText [(NPlain (raw (lit "
/*  Hello world! */
int main()
{
    // Entry point...
    printf( ")) IndNone false); (NStr (raw (lit """Hello world!"""))); (NPlain (raw (lit " );

    return 1;
}
")) IndNone false)] 0 0).
Definition eval_01_result : text := (lit "
/*  Hello world! */
int main()
{
    // Entry point...
    printf( ""Hello world!"" );

    return 1;
}
").

Definition eval_02_source : text := (lit "
($print ]($e) 100.0 ($len ""We all live in a yellow submarine,"")
\[)
($print ($add 2 2) '*' ($mul 2 2) '=' ($mul ($add 2 2) ($mul 2 2)) '\n' yellow submarine '\n')
($q ($reversed ($unq ""\n!dlrow olleH"")))
($ \p1.\p2.\p3.($add ($add p1 p2) p3) 1L 2 *( 3 4 5 ) 6 7l *(8 9 10 11 12 13 14 15))
($round ($ \f.\a.($f a) exp ($e)) 10)
($ \a.($ \p1.\p2.\p3.($add ($add p1 p2) p3) *a) ( 100 10 1 ))
($ \a.\...($($lazy __va_args__) \f.($f a)) 9 \n.($sqrt n) \n.[ ($n) ] \n.($pow n 2))
($join (,,(1),2,,3,(4),,5,6;;($zfill,,7;;3)) ,,,)
($macro m (c) ($replace,,($c),,2,,_))
($m,,1234256722)
// '12345'[ ::-1 ]
($getslice (`12345) (`) (`) -1)
").
Definition eval_02_tree : node :=
  (NText [(NPlain (raw (lit "
")) IndNone false); (NApply (NVar (RList []) (raw (lit "print"))) [(NText [(NApply (NVar (RList []) (raw (lit "e"))) [] [] None 0); (NPlain (raw (lit " 100.0 ")) IndNone false); (NApply (NVar (RList []) (raw (lit "len"))) [(NStr (raw (lit """We all live in a yellow submarine,""")))] [] None 0); (NPlain (raw (lit "
")) IndNone false)] 0 0)] [] None 0); (NPlain (raw (lit "
")) IndNone false); (NApply (NVar (RList []) (raw (lit "print"))) [(NApply (NVar (RList []) (raw (lit "add"))) [(NInt (2)); (NInt (2))] [] None 0); (NStr (raw (lit "'*'"))); (NApply (NVar (RList []) (raw (lit "mul"))) [(NInt (2)); (NInt (2))] [] None 0); (NStr (raw (lit "'='"))); (NApply (NVar (RList []) (raw (lit "mul"))) [(NApply (NVar (RList []) (raw (lit "add"))) [(NInt (2)); (NInt (2))] [] None 0); (NApply (NVar (RList []) (raw (lit "mul"))) [(NInt (2)); (NInt (2))] [] None 0)] [] None 0); (NStr (raw (lit "'\n'"))); (NVar (RList []) (raw (lit "yellow"))); (NVar (RList []) (raw (lit "submarine"))); (NStr (raw (lit "'\n'")))] [] None 0); (NPlain (raw (lit "
")) IndNone false); (NApply (NVar (RList []) (raw (lit "q"))) [(NApply (NVar (RList []) (raw (lit "reversed"))) [(NApply (NVar (RList []) (raw (lit "unq"))) [(NStr (raw (lit """\n!dlrow olleH""")))] [] None 0)] [] None 0)] [] None 0); (NPlain (raw (lit "
")) IndNone false); (NApply (NLambda [([], (raw (lit "p1")), NNone); ([], (raw (lit "p2")), NNone); ([], (raw (lit "p3")), NNone)] (NApply (NVar (RList []) (raw (lit "add"))) [(NApply (NVar (RList []) (raw (lit "add"))) [(NVar (RList []) (raw (lit "p1"))); (NVar (RList []) (raw (lit "p2")))] [] None 0); (NVar (RList []) (raw (lit "p3")))] [] None 0)) [(NInt (1)); (NInt (2)); (NEmbed (NList [(NInt (3)); (NInt (4)); (NInt (5))])); (NInt (6)); (NInt (7)); (NEmbed (NList [(NInt (8)); (NInt (9)); (NInt (10)); (NInt (11)); (NInt (12)); (NInt (13)); (NInt (14)); (NInt (15))]))] [] None 0); (NPlain (raw (lit "
")) IndNone false); (NApply (NVar (RList []) (raw (lit "round"))) [(NApply (NLambda [([], (raw (lit "f")), NNone); ([], (raw (lit "a")), NNone)] (NApply (NVar (RList []) (raw (lit "f"))) [(NVar (RList []) (raw (lit "a")))] [] None 0)) [(NVar (RList []) (raw (lit "exp"))); (NApply (NVar (RList []) (raw (lit "e"))) [] [] None 0)] [] None 0); (NInt (10))] [] None 0); (NPlain (raw (lit "
")) IndNone false); (NApply (NLambda [([], (raw (lit "a")), NNone)] (NApply (NLambda [([], (raw (lit "p1")), NNone); ([], (raw (lit "p2")), NNone); ([], (raw (lit "p3")), NNone)] (NApply (NVar (RList []) (raw (lit "add"))) [(NApply (NVar (RList []) (raw (lit "add"))) [(NVar (RList []) (raw (lit "p1"))); (NVar (RList []) (raw (lit "p2")))] [] None 0); (NVar (RList []) (raw (lit "p3")))] [] None 0)) [(NEmbed (NVar (RList []) (raw (lit "a"))))] [] None 0)) [(NList [(NInt (100)); (NInt (10)); (NInt (1))])] [] None 0); (NPlain (raw (lit "
")) IndNone false); (NApply (NLambda [([], (raw (lit "a")), NNone); ([], (raw (lit "...")), NNone)] (NApply (NApply (NVar (RList []) (raw (lit "lazy"))) [(NVar (RList []) (raw (lit "__va_args__")))] [] None 0) [(NLambda [([], (raw (lit "f")), NNone)] (NApply (NVar (RList []) (raw (lit "f"))) [(NVar (RList []) (raw (lit "a")))] [] None 0))] [] None 0)) [(NInt (9)); (NLambda [([], (raw (lit "n")), NNone)] (NApply (NVar (RList []) (raw (lit "sqrt"))) [(NVar (RList []) (raw (lit "n")))] [] None 0)); (NLambda [([], (raw (lit "n")), NNone)] (NText [(NPlain (raw (lit " ")) IndNone false); (NApply (NVar (RList []) (raw (lit "n"))) [] [] None 0); (NPlain (raw (lit " ")) IndNone false)] 0 0)); (NLambda [([], (raw (lit "n")), NNone)] (NApply (NVar (RList []) (raw (lit "pow"))) [(NVar (RList []) (raw (lit "n"))); (NInt (2))] [] None 0))] [] None 0); (NPlain (raw (lit "
")) IndNone false); (NApply (NVar (RList []) (raw (lit "join"))) [(NList [(NText [(NPlain (raw (lit "(1),2")) IndNone false)] 0 0); (NText [(NPlain (raw (lit "3,(4)")) IndNone false)] 0 0); (NText [(NPlain (raw (lit "5,6")) IndNone false)] 0 0); (NApply (NVar (RList []) (raw (lit "zfill"))) [(NText [(NPlain (raw (lit "7")) IndNone false)] 0 0); (NInt (3))] [] None 0)]); (NText [(NPlain (raw (lit ",")) IndNone false)] 0 0)] [] None 0); (NPlain (raw (lit "
")) IndNone false); (NMacro (raw (lit "m")) [(raw (lit "c"))] (lit " ($replace,,($c),,2,,_)")); (NPlain (raw (lit "
")) IndNone false); (NApply (NVar (RList []) (raw (lit "m"))) [(NText [(NPlain (raw (lit "1234256722")) IndNone false)] 0 0)] [] None 0); (NPlain (raw (lit "
// ")) IndNone false); (NStr (raw (lit "'12345'"))); (NPlain (raw (lit "[ ::-1 ]
")) IndNone false); (NApply (NVar (RList []) (raw (lit "getslice"))) [(NStr (raw (lit "12345"))); (NStr (raw (lit ""))); (NStr (raw (lit ""))); (NInt (-1))] [] None 0); (NPlain (raw (lit "
")) IndNone false)] 0 0).
Definition eval_02_result : text := (lit "
""Hello world!\n""
10
15.1542622415
111
3.0 9 81.0
(1),2,3,(4),5,6,007
1_34_567__
// '12345'[ ::-1 ]
54321
").

Definition eval_03_source : text := (lit "
($set greeting (`\n!dlrow olleH))
($q ($reversed ($unq greeting)))
($set a 222)
($set (b c d) ($round ($e) 11))
($set (e f g h i j) (1 2 3 4 5L))
($a) ($b) ($c) ($d) ($e) ($f) ($g) ($h) ($i)($j)
($set k 10)($set mult \i.($mul k i))($set l 3)
($list k ($mult 2) ($mult l ))
0
($!)($!)($!)
1
($set a 1)($set b 2)
2
($!) ($!)   ($!)
3
($set a 1)  ($set b 2)
4
5($!)
6($set a 1)
7($!)($!) ($!)
8($set a 1)($set b 2) ($set c 3)
($!)9 ($!)
($set a 1) ($set b 2)A($set c 3)
").
Definition eval_03_tree : node :=
  (NText [(NPlain (raw (lit "
")) IndNone false); (NSet (LAtom (raw (lit "greeting"))) (NStr (raw (lit "\n!dlrow olleH")))); (NPlain (raw (lit "
")) IndNone false); (NApply (NVar (RList []) (raw (lit "q"))) [(NApply (NVar (RList []) (raw (lit "reversed"))) [(NApply (NVar (RList []) (raw (lit "unq"))) [(NVar (RList []) (raw (lit "greeting")))] [] None 0)] [] None 0)] [] None 0); (NPlain (raw (lit "
")) IndNone false); (NSet (LAtom (raw (lit "a"))) (NInt (222))); (NPlain (raw (lit "
")) IndNone false); (NSet (LList [(raw (lit "b")); (raw (lit "c")); (raw (lit "d"))]) (NApply (NVar (RList []) (raw (lit "round"))) [(NApply (NVar (RList []) (raw (lit "e"))) [] [] None 0); (NInt (11))] [] None 0)); (NPlain (raw (lit "
")) IndNone false); (NSet (LList [(raw (lit "e")); (raw (lit "f")); (raw (lit "g")); (raw (lit "h")); (raw (lit "i")); (raw (lit "j"))]) (NList [(NInt (1)); (NInt (2)); (NInt (3)); (NInt (4)); (NInt (5))])); (NPlain (raw (lit "
")) IndNone false); (NApply (NVar (RList []) (raw (lit "a"))) [] [] None 0); (NPlain (raw (lit " ")) IndNone false); (NApply (NVar (RList []) (raw (lit "b"))) [] [] None 0); (NPlain (raw (lit " ")) IndNone false); (NApply (NVar (RList []) (raw (lit "c"))) [] [] None 0); (NPlain (raw (lit " ")) IndNone false); (NApply (NVar (RList []) (raw (lit "d"))) [] [] None 0); (NPlain (raw (lit " ")) IndNone false); (NApply (NVar (RList []) (raw (lit "e"))) [] [] None 0); (NPlain (raw (lit " ")) IndNone false); (NApply (NVar (RList []) (raw (lit "f"))) [] [] None 0); (NPlain (raw (lit " ")) IndNone false); (NApply (NVar (RList []) (raw (lit "g"))) [] [] None 0); (NPlain (raw (lit " ")) IndNone false); (NApply (NVar (RList []) (raw (lit "h"))) [] [] None 0); (NPlain (raw (lit " ")) IndNone false); (NApply (NVar (RList []) (raw (lit "i"))) [] [] None 0); (NApply (NVar (RList []) (raw (lit "j"))) [] [] None 0); (NPlain (raw (lit "
")) IndNone false); (NSet (LAtom (raw (lit "k"))) (NInt (10))); (NSet (LAtom (raw (lit "mult"))) (NLambda [([], (raw (lit "i")), NNone)] (NApply (NVar (RList []) (raw (lit "mul"))) [(NVar (RList []) (raw (lit "k"))); (NVar (RList []) (raw (lit "i")))] [] None 0))); (NSet (LAtom (raw (lit "l"))) (NInt (3))); (NPlain (raw (lit "
")) IndNone false); (NApply (NVar (RList []) (raw (lit "list"))) [(NVar (RList []) (raw (lit "k"))); (NApply (NVar (RList []) (raw (lit "mult"))) [(NInt (2))] [] None 0); (NApply (NVar (RList []) (raw (lit "mult"))) [(NVar (RList []) (raw (lit "l")))] [] None 0)] [] None 0); (NPlain (raw (lit "
0
")) IndNone false); NComment; NComment; NComment; (NPlain (raw (lit "
1
")) IndNone false); (NSet (LAtom (raw (lit "a"))) (NInt (1))); (NSet (LAtom (raw (lit "b"))) (NInt (2))); (NPlain (raw (lit "
2
")) IndNone false); NComment; (NPlain (raw (lit " ")) IndNone false); NComment; (NPlain (raw (lit "   ")) IndNone false); NComment; (NPlain (raw (lit "
3
")) IndNone false); (NSet (LAtom (raw (lit "a"))) (NInt (1))); (NPlain (raw (lit "  ")) IndNone false); (NSet (LAtom (raw (lit "b"))) (NInt (2))); (NPlain (raw (lit "
4
5")) IndNone false); NComment; (NPlain (raw (lit "
6")) IndNone false); (NSet (LAtom (raw (lit "a"))) (NInt (1))); (NPlain (raw (lit "
7")) IndNone false); NComment; NComment; (NPlain (raw (lit " ")) IndNone false); NComment; (NPlain (raw (lit "
8")) IndNone false); (NSet (LAtom (raw (lit "a"))) (NInt (1))); (NSet (LAtom (raw (lit "b"))) (NInt (2))); (NPlain (raw (lit " ")) IndNone false); (NSet (LAtom (raw (lit "c"))) (NInt (3))); (NPlain (raw (lit "
")) IndNone false); NComment; (NPlain (raw (lit "9 ")) IndNone false); NComment; (NPlain (raw (lit "
")) IndNone false); (NSet (LAtom (raw (lit "a"))) (NInt (1))); (NPlain (raw (lit " ")) IndNone false); (NSet (LAtom (raw (lit "b"))) (NInt (2))); (NPlain (raw (lit "A")) IndNone false); (NSet (LAtom (raw (lit "c"))) (NInt (3))); (NPlain (raw (lit "
")) IndNone false)] 0 0).
Definition eval_03_result : text := (lit "
""Hello world!\n""
222 2.71828182846 2.71828182846 2.71828182846 1 2 3 4 5
102030
0
1
2
3
4
5
6
7
8
9
A
").

Definition eval_04_source : text := (lit "
($set k 10)($set app \p1..\p2..\f.\i.($f k i))($set l 3)
($list k ($app \f ($mul &p1 &p2) 2) ($app \f ($mul &p1 &p2) l ))
($set l (""A"" ""B"" ""C""))
($set a 5)
($emit l), ($emit l \r.($r \s.($lower s))), ($emit l), ($emit l)
($emit a \n.{ n + 1 }), ($emit a \n.($q n)), ($emit a)
($set q 3)
($set add2 \n.($add n 2))
(${}($emit q add2)+($emit q add2)+($emit q add2)+($emit q add2))
($set p (c d))
($ \(p).{c - d} 100 500)
($set p (d c))
($ \(p).{c - d} 100 500)
").
Definition eval_04_tree : node :=
  (NText [(NPlain (raw (lit "
")) IndNone false); (NSet (LAtom (raw (lit "k"))) (NInt (10))); (NSet (LAtom (raw (lit "app"))) (NLambda [([(raw (lit "p1")); (raw (lit "p2"))], (raw (lit "f")), NNone); ([], (raw (lit "i")), NNone)] (NApply (NVar (RList []) (raw (lit "f"))) [(NVar (RList []) (raw (lit "k"))); (NVar (RList []) (raw (lit "i")))] [] None 0))); (NSet (LAtom (raw (lit "l"))) (NInt (3))); (NPlain (raw (lit "
")) IndNone false); (NApply (NVar (RList []) (raw (lit "list"))) [(NVar (RList []) (raw (lit "k"))); (NApply (NVar (RList []) (raw (lit "app"))) [(NInt (2))] [((raw (lit "f")), (NApply (NVar (RList []) (raw (lit "mul"))) [(NVar RLate (raw (lit "p1"))); (NVar RLate (raw (lit "p2")))] [] None 0))] None 0); (NApply (NVar (RList []) (raw (lit "app"))) [(NVar (RList []) (raw (lit "l")))] [((raw (lit "f")), (NApply (NVar (RList []) (raw (lit "mul"))) [(NVar RLate (raw (lit "p1"))); (NVar RLate (raw (lit "p2")))] [] None 0))] None 0)] [] None 0); (NPlain (raw (lit "
")) IndNone false); (NSet (LAtom (raw (lit "l"))) (NList [(NStr (raw (lit """A"""))); (NStr (raw (lit """B"""))); (NStr (raw (lit """C""")))])); (NPlain (raw (lit "
")) IndNone false); (NSet (LAtom (raw (lit "a"))) (NInt (5))); (NPlain (raw (lit "
")) IndNone false); (NEmit (RList []) (raw (lit "l")) NNone); (NPlain (raw (lit ", ")) IndNone false); (NEmit (RList []) (raw (lit "l")) (NLambda [([], (raw (lit "r")), NNone)] (NApply (NVar (RList []) (raw (lit "r"))) [(NLambda [([], (raw (lit "s")), NNone)] (NApply (NVar (RList []) (raw (lit "lower"))) [(NVar (RList []) (raw (lit "s")))] [] None 0))] [] None 0))); (NPlain (raw (lit ", ")) IndNone false); (NEmit (RList []) (raw (lit "l")) NNone); (NPlain (raw (lit ", ")) IndNone false); (NEmit (RList []) (raw (lit "l")) NNone); (NPlain (raw (lit "
")) IndNone false); (NEmit (RList []) (raw (lit "a")) (NLambda [([], (raw (lit "n")), NNone)] (NInfix (NText [(NPlain (raw (lit " n + 1 ")) IndNone false)] 0 0) None 0))); (NPlain (raw (lit ", ")) IndNone false); (NEmit (RList []) (raw (lit "a")) (NLambda [([], (raw (lit "n")), NNone)] (NApply (NVar (RList []) (raw (lit "q"))) [(NVar (RList []) (raw (lit "n")))] [] None 0))); (NPlain (raw (lit ", ")) IndNone false); (NEmit (RList []) (raw (lit "a")) NNone); (NPlain (raw (lit "
")) IndNone false); (NSet (LAtom (raw (lit "q"))) (NInt (3))); (NPlain (raw (lit "
")) IndNone false); (NSet (LAtom (raw (lit "add2"))) (NLambda [([], (raw (lit "n")), NNone)] (NApply (NVar (RList []) (raw (lit "add"))) [(NVar (RList []) (raw (lit "n"))); (NInt (2))] [] None 0))); (NPlain (raw (lit "
")) IndNone false); (NInfix (NText [(NEmit (RList []) (raw (lit "q")) (NVar (RList []) (raw (lit "add2")))); (NPlain (raw (lit "+")) IndNone false); (NEmit (RList []) (raw (lit "q")) (NVar (RList []) (raw (lit "add2")))); (NPlain (raw (lit "+")) IndNone false); (NEmit (RList []) (raw (lit "q")) (NVar (RList []) (raw (lit "add2")))); (NPlain (raw (lit "+")) IndNone false); (NEmit (RList []) (raw (lit "q")) (NVar (RList []) (raw (lit "add2"))))] 0 0) None 0); (NPlain (raw (lit "
")) IndNone false); (NSet (LAtom (raw (lit "p"))) (NList [(NVar (RList []) (raw (lit "c"))); (NVar (RList []) (raw (lit "d")))])); (NPlain (raw (lit "
")) IndNone false); (NApply (NLambdaV (RList []) (raw (lit "p")) (NInfix (NText [(NPlain (raw (lit "c - d")) IndNone false)] 0 0) None 0)) [(NInt (100)); (NInt (500))] [] None 0); (NPlain (raw (lit "
")) IndNone false); (NSet (LAtom (raw (lit "p"))) (NList [(NVar (RList []) (raw (lit "d"))); (NVar (RList []) (raw (lit "c")))])); (NPlain (raw (lit "
")) IndNone false); (NApply (NLambdaV (RList []) (raw (lit "p")) (NInfix (NText [(NPlain (raw (lit "c - d")) IndNone false)] 0 0) None 0)) [(NInt (100)); (NInt (500))] [] None 0); (NPlain (raw (lit "
")) IndNone false)] 0 0).
Definition eval_04_result : text := (lit "
102030
""A"", ""B"", ""c"",
5, 6, ""6""
24
-400
400
").

Definition eval_05_source : text := (lit "
($set def-fn-argv \type.\name.\type..\arg-begin..\arg-count..\arg-value..\arg-end..\body.]
($type) ($name)( int argcnt, ... )
{
    ($body \type type \arg-begin ]
        va_list argptr;
        va_start( argptr, argcnt );
    [\arg-count ]
        argcnt
    [\arg-value \type.]
        va_arg( argptr, ($type) )
    [\arg-end ]
        va_end( argptr );
    \[\body )
}
[\set )

($def-fn-argv \type int \name sumi ]
    int result = 0;
    ($ &arg-begin)
    while ( ($ &arg-count)-- ) result += ($ &arg-value &type);
    ($ &arg-end)
    return ( result );
\[\def-fn-argv )
").
Definition eval_05_tree : node :=
  (NText [(NPlain (raw (lit "
")) IndNone false); (NSet (LAtom (raw (lit "def-fn-argv"))) (NLambda [([], (raw (lit "type")), NNone); ([], (raw (lit "name")), NNone); ([(raw (lit "type")); (raw (lit "arg-begin")); (raw (lit "arg-count")); (raw (lit "arg-value")); (raw (lit "arg-end"))], (raw (lit "body")), NNone)] (NText [(NApply (NVar (RList []) (raw (lit "type"))) [] [] None 0); (NPlain (raw (lit " ")) IndNone false); (NApply (NVar (RList []) (raw (lit "name"))) [] [] None 0); (NPlain (raw (lit "( int argcnt, ... )
{
    ")) IndNone false); (NApply (NVar (RList []) (raw (lit "body"))) [] [((raw (lit "type")), (NVar (RList []) (raw (lit "type")))); ((raw (lit "arg-begin")), (NText [(NPlain (raw (lit "        va_list argptr;
        va_start( argptr, argcnt );")) IndNone false)] 0 0)); ((raw (lit "arg-count")), (NText [(NPlain (raw (lit "        argcnt")) IndNone false)] 0 0)); ((raw (lit "arg-value")), (NLambda [([], (raw (lit "type")), NNone)] (NText [(NPlain (raw (lit "        va_arg( argptr, ")) IndNone false); (NApply (NVar (RList []) (raw (lit "type"))) [] [] None 0); (NPlain (raw (lit " )")) IndNone false)] 0 0))); ((raw (lit "arg-end")), (NText [(NPlain (raw (lit "        va_end( argptr );")) IndNone false)] 0 0))] None 0); (NPlain (raw (lit "
}")) IndNone false)] 0 0))); (NPlain (raw (lit "

")) IndNone false); (NApply (NVar (RList []) (raw (lit "def-fn-argv"))) [(NText [(NPlain (raw (lit "    int result = 0;
    ")) IndNone false); (NApply (NVar RLate (raw (lit "arg-begin"))) [] [] None 0); (NPlain (raw (lit "
    while ( ")) IndNone false); (NApply (NVar RLate (raw (lit "arg-count"))) [] [] None 0); (NPlain (raw (lit "-- ) result += ")) IndNone false); (NApply (NVar RLate (raw (lit "arg-value"))) [(NVar RLate (raw (lit "type")))] [] None 0); (NPlain (raw (lit ";
    ")) IndNone false); (NApply (NVar RLate (raw (lit "arg-end"))) [] [] None 0); (NPlain (raw (lit "
    return ( result );")) IndNone false)] 0 0)] [((raw (lit "type")), (NVar (RList []) (raw (lit "int")))); ((raw (lit "name")), (NVar (RList []) (raw (lit "sumi"))))] None 0); (NPlain (raw (lit "
")) IndNone false)] 0 0).
Definition eval_05_result : text := (lit "
int sumi( int argcnt, ... )
{
    int result = 0;
    va_list argptr;
    va_start( argptr, argcnt );
    while ( argcnt-- ) result += va_arg( argptr, int );
    va_end( argptr );
    return ( result );
}
").

Definition eval_06_source : text := (lit "
($macro m (a b)($add ($a) ($b)))
($set a \b.($m 1 b))
($a 2)
($macro m1 ()""C, forever!"")
($m1)
($macro m2 (m a)($($m) ($a) (b)($($m) ($b) (c)($($m) ($c) ()Yes!))))
($m2 macro new_m2)
($new_m2 new_new_m2)
($new_new_m2 new_new_new_m2)
($new_new_new_m2)
($set n 22)
($""($p1)+($0)+($1)+($2)=($p0)"" +1 +2 +4 \p1 15 \p0 n)
($set s '($sub ($n1) ($n2))')
($$s \n1 10 \n2 2)
($$""($add 2 2)"")
($macro a (){
    ($set b 5)
    ($b),
})
{
    {
        ($a)
    }
}
").
Definition eval_06_tree : node :=
  (NText [(NPlain (raw (lit "
")) IndNone false); (NMacro (raw (lit "m")) [(raw (lit "a")); (raw (lit "b"))] (lit "($add ($a) ($b))")); (NPlain (raw (lit "
")) IndNone false); (NSet (LAtom (raw (lit "a"))) (NLambda [([], (raw (lit "b")), NNone)] (NApply (NVar (RList []) (raw (lit "m"))) [(NInt (1)); (NVar (RList []) (raw (lit "b")))] [] None 0))); (NPlain (raw (lit "
")) IndNone false); (NApply (NVar (RList []) (raw (lit "a"))) [(NInt (2))] [] None 0); (NPlain (raw (lit "
")) IndNone false); (NMacro (raw (lit "m1")) [] (lit """C, forever!""")); (NPlain (raw (lit "
")) IndNone false); (NApply (NVar (RList []) (raw (lit "m1"))) [] [] None 0); (NPlain (raw (lit "
")) IndNone false); (NMacro (raw (lit "m2")) [(raw (lit "m")); (raw (lit "a"))] (lit "($($m) ($a) (b)($($m) ($b) (c)($($m) ($c) ()Yes!)))")); (NPlain (raw (lit "
")) IndNone false); (NApply (NVar (RList []) (raw (lit "m2"))) [(NVar (RList []) (raw (lit "macro"))); (NVar (RList []) (raw (lit "new_m2")))] [] None 0); (NPlain (raw (lit "
")) IndNone false); (NApply (NVar (RList []) (raw (lit "new_m2"))) [(NVar (RList []) (raw (lit "new_new_m2")))] [] None 0); (NPlain (raw (lit "
")) IndNone false); (NApply (NVar (RList []) (raw (lit "new_new_m2"))) [(NVar (RList []) (raw (lit "new_new_new_m2")))] [] None 0); (NPlain (raw (lit "
")) IndNone false); (NApply (NVar (RList []) (raw (lit "new_new_new_m2"))) [] [] None 0); (NPlain (raw (lit "
")) IndNone false); (NSet (LAtom (raw (lit "n"))) (NInt (22))); (NPlain (raw (lit "
")) IndNone false); (NApply (NStr (raw (lit """($p1)+($0)+($1)+($2)=($p0)"""))) [(NInt (1)); (NInt (2)); (NInt (4))] [((raw (lit "p1")), (NInt (15))); ((raw (lit "p0")), (NVar (RList []) (raw (lit "n"))))] None 0); (NPlain (raw (lit "
")) IndNone false); (NSet (LAtom (raw (lit "s"))) (NStr (raw (lit "'($sub ($n1) ($n2))'")))); (NPlain (raw (lit "
")) IndNone false); (NEval (NApply (NVar (RList []) (raw (lit "s"))) [] [((raw (lit "n1")), (NInt (10))); ((raw (lit "n2")), (NInt (2)))] None 0) None None); (NPlain (raw (lit "
")) IndNone false); (NEval (NApply (NStr (raw (lit """($add 2 2)"""))) [] [] None 0) None None); (NPlain (raw (lit "
")) IndNone false); (NMacro (raw (lit "a")) [] (lit "{
    ($set b 5)
    ($b),
}")); (NPlain (raw (lit "
{
    {
        ")) IndNone false); (NApply (NVar (RList []) (raw (lit "a"))) [] [] None 0); (NPlain (raw (lit "
    }
}
")) IndNone false)] 0 0).
Definition eval_06_result : text := (lit "
3
""C, forever!""
Yes!
""15+1+2+4=22""
8
4
{
    {
        {
            5,
        }
    }
}
").

Definition eval_07_source : text := (lit "
($($\y:u.\m.\...(m y($\C.\p.(r)e p)($\ro.(ce)s)))so r)
").
Definition eval_07_tree : node :=
  (NText [(NPlain (raw (lit "
")) IndNone false); (NApply (NApply (NLambda [([], (raw (lit "y")), (NVar (RList []) (raw (lit "u")))); ([], (raw (lit "m")), NNone); ([], (raw (lit "...")), NNone)] (NList [(NVar (RList []) (raw (lit "m"))); (NVar (RList []) (raw (lit "y"))); (NApply (NLambda [([], (raw (lit "C")), NNone); ([], (raw (lit "p")), NNone)] (NList [(NVar (RList []) (raw (lit "r")))])) [(NVar (RList []) (raw (lit "e"))); (NVar (RList []) (raw (lit "p")))] [] None 0); (NApply (NLambda [([], (raw (lit "ro")), NNone)] (NList [(NVar (RList []) (raw (lit "ce")))])) [(NVar (RList []) (raw (lit "s")))] [] None 0)])) [] [] None 0) [(NVar (RList []) (raw (lit "so"))); (NVar (RList []) (raw (lit "r")))] [] None 0); (NPlain (raw (lit "
")) IndNone false)] 0 0).
Definition eval_07_result : text := (lit "
source
").

Definition eval_08_source : text := (lit "
($import ""eg/lib.py"")
($import { define_upper_reversed( 'uprevst' ) })
#define ($uprevst hello)
($import ""stdlib.yu"")
($def-fn-argv \type int \name sumi ]
    int result = 0;
    ($ &arg-begin)
    while ( ($ &arg-count)-- ) result += ($ &arg-value &type);
    ($ &arg-end)
    return ( result );
\[\def-fn-argv )
").
Definition eval_08_tree : node :=
  (NText [(NPlain (raw (lit "
")) IndNone false); (NPlain (raw (lit "
")) IndNone false); (NSet (LAtom (raw (lit "uprevst"))) (NLambda [([], (raw (lit "a")), NNone)] (NApply (NVar (RList []) (raw (lit "upper"))) [(NApply (NVar (RList []) (raw (lit "reversed_string"))) [(NVar (RList []) (raw (lit "a")))] [] None 0)] [] None 0))); (NPlain (raw (lit "
#define ")) IndNone false); (NApply (NVar (RList []) (raw (lit "uprevst"))) [(NVar (RList []) (raw (lit "hello")))] [] None 0); (NPlain (raw (lit "
")) IndNone false); NImportBegin; NComment; (NPlain (raw (lit "
")) IndNone false); (NMacro (raw (lit "dict")) [(raw (lit "id")); (raw (lit "cols")); (raw (lit "body"))] (lit "
	($set cols-($id) ($range ($len (($cols)) )))
	($set each-($id) ($range ($len (($body)) )))
	($set (($cols))
		($cols-($id) \__i.($ (($body)) \__var.($__i __var)))
	)
")); (NPlain (raw (lit "

")) IndNone false); NComment; (NPlain (raw (lit "
")) IndNone false); (NSet (LAtom (raw (lit "if"))) (NLambda [([], (raw (lit "cond")), NNone); ([], (raw (lit "then")), (NText [] 0 0)); ([], (raw (lit "else")), (NText [] 0 0))] (NApply (NCond (NVar (RList []) (raw (lit "cond"))) (NVar (RList []) (raw (lit "then"))) (NVar (RList []) (raw (lit "else")))) [] [] None 0))); (NPlain (raw (lit "

")) IndNone false); NComment; (NPlain (raw (lit "
")) IndNone false); (NSet (LAtom (raw (lit "unless"))) (NLambda [([], (raw (lit "cond")), NNone); ([], (raw (lit "then")), (NText [] 0 0)); ([], (raw (lit "else")), (NText [] 0 0))] (NApply (NCond (NVar (RList []) (raw (lit "cond"))) (NVar (RList []) (raw (lit "else"))) (NVar (RList []) (raw (lit "then")))) [] [] None 0))); (NPlain (raw (lit "

")) IndNone false); NComment; (NPlain (raw (lit "
")) IndNone false); (NSet (LAtom (raw (lit "unfold"))) (NLambda [([], (raw (lit "count")), NNone); ([], (raw (lit "...")), NNone)] (NLet (LList [(raw (lit "__last")); (raw (lit "__func"))]) (NList [(NApply (NVar (RList []) (raw (lit "sub"))) [(NApply (NVar (RList []) (raw (lit "len"))) [(NApply (NVar (RList []) (raw (lit "lazy"))) [(NVar (RList []) (raw (lit "__va_args__")))] [] None 0)] [] None 0); (NInt (1))] [] None 0); (NApply (NVar (RList []) (raw (lit "__last"))) [(NApply (NVar (RList []) (raw (lit "lazy"))) [(NVar (RList []) (raw (lit "__va_args__")))] [] None 0)] [] None 0)]) (NApply (NApply (NVar (RList []) (raw (lit "range"))) [(NVar (RList []) (raw (lit "count")))] [] None 0) [(NLambda [([], (raw (lit "__i")), NNone)] (NApply (NVar (RList []) (raw (lit "if"))) [(NInfix (NText [(NPlain (raw (lit " __i < __last ")) IndNone false)] 0 0) None 0); (NApply (NVar (RList []) (raw (lit "__i"))) [(NApply (NVar (RList []) (raw (lit "lazy"))) [(NVar (RList []) (raw (lit "__va_args__")))] [] None 0)] [] None 0); (NApply (NVar (RList []) (raw (lit "__func"))) [(NVar (RList []) (raw (lit "__i")))] [] None 0)] [] None 0))] [] None 0)))); (NPlain (raw (lit "

")) IndNone false); NComment; (NPlain (raw (lit "
")) IndNone false); (NMacro (raw (lit "do")) [(raw (lit "body"))] (lit "do {
($body)
} while ( 0 )")); (NPlain (raw (lit "

")) IndNone false); NComment; (NPlain (raw (lit "
")) IndNone false); (NMacro (raw (lit "foo")) [(raw (lit "body"))] (lit "({
($body)
})")); (NPlain (raw (lit "

")) IndNone false); NComment; (NPlain (raw (lit "
")) IndNone false); (NSet (LAtom (raw (lit "__EOL__"))) (NCond (NApply (NVar (RList []) (raw (lit "not"))) [(NApply (NVar (RList []) (raw (lit "isatom"))) [(NVar (RList []) (raw (lit "EOL")))] [] None 0)] [] None 0) (NVar (RList []) (raw (lit "EOL"))) (NText [(NPlain (raw (lit "
")) IndNone false)] 0 0))); (NPlain (raw (lit "
")) IndNone false); (NSet (LAtom (raw (lit "define"))) (NLambda [([], (raw (lit "sig")), NNone); ([], (raw (lit "body")), NNone)] (NApply (NVar (RList []) (raw (lit "join"))) [(NApply (NVar (RList []) (raw (lit "split"))) [(NText [(NApply (NVar (RList []) (raw (lit "unq"))) [(NStr (raw (lit """#define""")))] [] None 0); (NPlain (raw (lit " ")) IndNone false); (NApply (NVar (RList []) (raw (lit "sig"))) [] [] None 0); (NPlain (raw (lit " ")) IndNone false); (NApply (NVar (RList []) (raw (lit "body"))) [] [] None 0)] 0 0); (NVar (RList []) (raw (lit "__EOL__")))] [] None 0); (NText [(NPlain (raw (lit " \")) IndNone false); (NApply (NVar (RList []) (raw (lit "__EOL__"))) [] [] None 0)] 0 0)] [] None 0))); (NPlain (raw (lit "

")) IndNone false); NComment; (NPlain (raw (lit "
")) IndNone false); (NMacro (raw (lit "def")) [(raw (lit "name"))] (lit "($set ($name) 1)
($unq ""#define"") ($name)")); (NPlain (raw (lit "

")) IndNone false); NComment; (NPlain (raw (lit "
")) IndNone false); (NMacro (raw (lit "undef")) [(raw (lit "name"))] (lit "($set ($name) 0)
($unq ""#undef"")  ($name)")); (NPlain (raw (lit "

")) IndNone false); NComment; (NPlain (raw (lit "
")) IndNone false); (NMacro (raw (lit "def-if")) [(raw (lit "cond")); (raw (lit "name"))] (lit "($set ($name) 1 ? ($cond) | 0)
($if ($name) [($unq ""#define"") ($name)])")); (NPlain (raw (lit "

")) IndNone false); NComment; (NPlain (raw (lit "
")) IndNone false); (NMacro (raw (lit "skip-if")) [(raw (lit "cond"))] (lit "($if ($cond) ($skip))")); (NPlain (raw (lit "
")) IndNone false); (NMacro (raw (lit "skip-if-not")) [(raw (lit "cond"))] (lit "($if ($not ($cond)) ($skip))")); (NPlain (raw (lit "

")) IndNone false); NComment; (NPlain (raw (lit "
")) IndNone false); (NSet (LAtom (raw (lit "BIN"))) (NLambda [([], (raw (lit "b")), NNone)] (NApply (NVar (RList []) (raw (lit "atoi"))) [(NVar (RList []) (raw (lit "b"))); (NInt (2))] [] None 0))); (NPlain (raw (lit "

")) IndNone false); NComment; (NPlain (raw (lit "
")) IndNone false); (NSet (LAtom (raw (lit "BB"))) (NLambda [([], (raw (lit "...")), NNone)] (NApply (NVar (RList []) (raw (lit "sum"))) [(NApply (NApply (NVar (RList []) (raw (lit "range"))) [(NApply (NVar (RList []) (raw (lit "len"))) [(NVar (RList []) (raw (lit "__va_args__")))] [] None 0)] [] None 0) [(NLambda [([], (raw (lit "__i")), NNone)] (NInfix (NText [(NPlain (raw (lit " ")) IndNone false); (NApply (NVar (RList []) (raw (lit "BIN"))) [(NApply (NVar (RList []) (raw (lit "__i"))) [(NApply (NVar (RList []) (raw (lit "reversed"))) [(NVar (RList []) (raw (lit "__va_args__")))] [] None 0)] [] None 0)] [] None 0); (NPlain (raw (lit " << ")) IndNone false); (NApply (NVar (RList []) (raw (lit "__i"))) [] [] None 0); (NPlain (raw (lit " * 8 ")) IndNone false)] 0 0) None 0))] [] None 0)] [] None 0))); (NPlain (raw (lit "

")) IndNone false); NComment; (NPlain (raw (lit "
")) IndNone false); (NSet (LAtom (raw (lit "def-fn-argv"))) (NLambda [([], (raw (lit "type")), NNone); ([], (raw (lit "name")), NNone); ([(raw (lit "type")); (raw (lit "arg-begin")); (raw (lit "arg-count")); (raw (lit "arg-value")); (raw (lit "arg-end"))], (raw (lit "body")), NNone)] (NText [(NApply (NVar (RList []) (raw (lit "type"))) [] [] None 0); (NPlain (raw (lit " ")) IndNone false); (NApply (NVar (RList []) (raw (lit "name"))) [] [] None 0); (NPlain (raw (lit "( int argcnt, ... )
{
	")) IndNone false); (NApply (NVar (RList []) (raw (lit "body"))) [] [((raw (lit "type")), (NVar (RList []) (raw (lit "type")))); ((raw (lit "arg-begin")), (NText [(NPlain (raw (lit "		va_list argptr;
		va_start( argptr, argcnt );")) IndNone false)] 0 0)); ((raw (lit "arg-count")), (NText [(NPlain (raw (lit "		argcnt")) IndNone false)] 0 0)); ((raw (lit "arg-value")), (NLambda [([], (raw (lit "type")), NNone)] (NText [(NPlain (raw (lit "		va_arg( argptr, ")) IndNone false); (NApply (NVar (RList []) (raw (lit "type"))) [] [] None 0); (NPlain (raw (lit " )")) IndNone false)] 0 0))); ((raw (lit "arg-end")), (NText [(NPlain (raw (lit "		va_end( argptr );")) IndNone false)] 0 0))] None 0); (NPlain (raw (lit "
}")) IndNone false)] 0 0))); (NPlain (raw (lit "

")) IndNone false); (NSet (LAtom (raw (lit "INT_MAX"))) (NInfix (NText [(NPlain (raw (lit " sys.maxsize ")) IndNone false)] 0 0) None 0)); (NPlain (raw (lit "

")) IndNone false); (NSet (LAtom (raw (lit "INT_MIN"))) (NInfix (NText [(NPlain (raw (lit " -sys.maxsize - 1 ")) IndNone false)] 0 0) None 0)); (NPlain (raw (lit "
")) IndNone false); NImportEnd; (NPlain (raw (lit "
")) IndNone false); (NApply (NVar (RList []) (raw (lit "def-fn-argv"))) [(NText [(NPlain (raw (lit "    int result = 0;
    ")) IndNone false); (NApply (NVar RLate (raw (lit "arg-begin"))) [] [] None 0); (NPlain (raw (lit "
    while ( ")) IndNone false); (NApply (NVar RLate (raw (lit "arg-count"))) [] [] None 0); (NPlain (raw (lit "-- ) result += ")) IndNone false); (NApply (NVar RLate (raw (lit "arg-value"))) [(NVar RLate (raw (lit "type")))] [] None 0); (NPlain (raw (lit ";
    ")) IndNone false); (NApply (NVar RLate (raw (lit "arg-end"))) [] [] None 0); (NPlain (raw (lit "
    return ( result );")) IndNone false)] 0 0)] [((raw (lit "type")), (NVar (RList []) (raw (lit "int")))); ((raw (lit "name")), (NVar (RList []) (raw (lit "sumi"))))] None 0); (NPlain (raw (lit "
")) IndNone false)] 0 0).
Definition eval_08_result : text := (lit "
#define OLLEH

int sumi( int argcnt, ... )
{
	int result = 0;
	va_list argptr;
	va_start( argptr, argcnt );
	while ( argcnt-- ) result += va_arg( argptr, int );
	va_end( argptr );
	return ( result );
}
").

Definition eval_09_source : text := (lit "
($add ? 0 | sub 10 ? 1 | 5 0 ? 0 | 3)
($set if \cond.\then:[].\else:[].($ then ? cond | else))
($if ($eq 1 1) \then 'True' \else 'False')
($if ($eq 0 1) 'True' 'False')
($if 1 'True')
($if 0 \else 'False')
($if { 2 + 2 != 2 * 2 } 'True' 'F')
($set q 10)
($if ($eq q 0) 'Zero' q)
($set fact \n.($if ($eq n 0) 1 ($mul ($fact ($sub n 1)) n)))
($fact 0)
($fact 12)
($set fact \n.($ 1 ?($eq n 0) | ($mul ($fact ($sub n 1)) n)))
($fact 33) //max is ~1200
    ($set f \n.($if ($eq n 0) ""0000"" ""BAD""))
    ($f 0)
        ($f 10)
    ($f 0)
        ($f 20)
    // macro
    ($macro if (cond then else) ($ ($then) ? ($cond) | ($else)))
    ($set f \n.($if ($eq n 0) ""0000"" ""BAD""))
    ($f 0)
        ($f ""a"")
    ($f 0)
        ($f 20)
($set f \c.\a.\b.($ ($range c) \i.($b ? i | a)))
($ \n.($f n A B) 3)
").
Definition eval_09_tree : node :=
  (NText [(NPlain (raw (lit "
")) IndNone false); (NApply (NCond (NInt (0)) (NVar (RList []) (raw (lit "add"))) (NVar (RList []) (raw (lit "sub")))) [(NCond (NInt (1)) (NInt (10)) (NInt (5))); (NCond (NInt (0)) (NInt (0)) (NInt (3)))] [] None 0); (NPlain (raw (lit "
")) IndNone false); (NSet (LAtom (raw (lit "if"))) (NLambda [([], (raw (lit "cond")), NNone); ([], (raw (lit "then")), (NText [] 0 0)); ([], (raw (lit "else")), (NText [] 0 0))] (NApply (NCond (NVar (RList []) (raw (lit "cond"))) (NVar (RList []) (raw (lit "then"))) (NVar (RList []) (raw (lit "else")))) [] [] None 0))); (NPlain (raw (lit "
")) IndNone false); (NApply (NVar (RList []) (raw (lit "if"))) [(NApply (NVar (RList []) (raw (lit "eq"))) [(NInt (1)); (NInt (1))] [] None 0)] [((raw (lit "then")), (NStr (raw (lit "'True'")))); ((raw (lit "else")), (NStr (raw (lit "'False'"))))] None 0); (NPlain (raw (lit "
")) IndNone false); (NApply (NVar (RList []) (raw (lit "if"))) [(NApply (NVar (RList []) (raw (lit "eq"))) [(NInt (0)); (NInt (1))] [] None 0); (NStr (raw (lit "'True'"))); (NStr (raw (lit "'False'")))] [] None 0); (NPlain (raw (lit "
")) IndNone false); (NApply (NVar (RList []) (raw (lit "if"))) [(NInt (1)); (NStr (raw (lit "'True'")))] [] None 0); (NPlain (raw (lit "
")) IndNone false); (NApply (NVar (RList []) (raw (lit "if"))) [(NInt (0))] [((raw (lit "else")), (NStr (raw (lit "'False'"))))] None 0); (NPlain (raw (lit "
")) IndNone false); (NApply (NVar (RList []) (raw (lit "if"))) [(NInfix (NText [(NPlain (raw (lit " 2 + 2 != 2 * 2 ")) IndNone false)] 0 0) None 0); (NStr (raw (lit "'True'"))); (NStr (raw (lit "'F'")))] [] None 0); (NPlain (raw (lit "
")) IndNone false); (NSet (LAtom (raw (lit "q"))) (NInt (10))); (NPlain (raw (lit "
")) IndNone false); (NApply (NVar (RList []) (raw (lit "if"))) [(NApply (NVar (RList []) (raw (lit "eq"))) [(NVar (RList []) (raw (lit "q"))); (NInt (0))] [] None 0); (NStr (raw (lit "'Zero'"))); (NVar (RList []) (raw (lit "q")))] [] None 0); (NPlain (raw (lit "
")) IndNone false); (NSet (LAtom (raw (lit "fact"))) (NLambda [([], (raw (lit "n")), NNone)] (NApply (NVar (RList []) (raw (lit "if"))) [(NApply (NVar (RList []) (raw (lit "eq"))) [(NVar (RList []) (raw (lit "n"))); (NInt (0))] [] None 0); (NInt (1)); (NApply (NVar (RList []) (raw (lit "mul"))) [(NApply (NVar (RList []) (raw (lit "fact"))) [(NApply (NVar (RList []) (raw (lit "sub"))) [(NVar (RList []) (raw (lit "n"))); (NInt (1))] [] None 0)] [] None 0); (NVar (RList []) (raw (lit "n")))] [] None 0)] [] None 0))); (NPlain (raw (lit "
")) IndNone false); (NApply (NVar (RList []) (raw (lit "fact"))) [(NInt (0))] [] None 0); (NPlain (raw (lit "
")) IndNone false); (NApply (NVar (RList []) (raw (lit "fact"))) [(NInt (12))] [] None 0); (NPlain (raw (lit "
")) IndNone false); (NSet (LAtom (raw (lit "fact"))) (NLambda [([], (raw (lit "n")), NNone)] (NApply (NCond (NApply (NVar (RList []) (raw (lit "eq"))) [(NVar (RList []) (raw (lit "n"))); (NInt (0))] [] None 0) (NInt (1)) (NApply (NVar (RList []) (raw (lit "mul"))) [(NApply (NVar (RList []) (raw (lit "fact"))) [(NApply (NVar (RList []) (raw (lit "sub"))) [(NVar (RList []) (raw (lit "n"))); (NInt (1))] [] None 0)] [] None 0); (NVar (RList []) (raw (lit "n")))] [] None 0)) [] [] None 0))); (NPlain (raw (lit "
")) IndNone false); (NApply (NVar (RList []) (raw (lit "fact"))) [(NInt (33))] [] None 0); (NPlain (raw (lit " //max is ~1200
    ")) IndNone false); (NSet (LAtom (raw (lit "f"))) (NLambda [([], (raw (lit "n")), NNone)] (NApply (NVar (RList []) (raw (lit "if"))) [(NApply (NVar (RList []) (raw (lit "eq"))) [(NVar (RList []) (raw (lit "n"))); (NInt (0))] [] None 0); (NStr (raw (lit """0000"""))); (NStr (raw (lit """BAD""")))] [] None 0))); (NPlain (raw (lit "
    ")) IndNone false); (NApply (NVar (RList []) (raw (lit "f"))) [(NInt (0))] [] None 0); (NPlain (raw (lit "
        ")) IndNone false); (NApply (NVar (RList []) (raw (lit "f"))) [(NInt (10))] [] None 0); (NPlain (raw (lit "
    ")) IndNone false); (NApply (NVar (RList []) (raw (lit "f"))) [(NInt (0))] [] None 0); (NPlain (raw (lit "
        ")) IndNone false); (NApply (NVar (RList []) (raw (lit "f"))) [(NInt (20))] [] None 0); (NPlain (raw (lit "
    // macro
    ")) IndNone false); (NMacro (raw (lit "if")) [(raw (lit "cond")); (raw (lit "then")); (raw (lit "else"))] (lit " ($ ($then) ? ($cond) | ($else))")); (NPlain (raw (lit "
    ")) IndNone false); (NSet (LAtom (raw (lit "f"))) (NLambda [([], (raw (lit "n")), NNone)] (NApply (NVar (RList []) (raw (lit "if"))) [(NApply (NVar (RList []) (raw (lit "eq"))) [(NVar (RList []) (raw (lit "n"))); (NInt (0))] [] None 0); (NStr (raw (lit """0000"""))); (NStr (raw (lit """BAD""")))] [] None 0))); (NPlain (raw (lit "
    ")) IndNone false); (NApply (NVar (RList []) (raw (lit "f"))) [(NInt (0))] [] None 0); (NPlain (raw (lit "
        ")) IndNone false); (NApply (NVar (RList []) (raw (lit "f"))) [(NStr (raw (lit """a""")))] [] None 0); (NPlain (raw (lit "
    ")) IndNone false); (NApply (NVar (RList []) (raw (lit "f"))) [(NInt (0))] [] None 0); (NPlain (raw (lit "
        ")) IndNone false); (NApply (NVar (RList []) (raw (lit "f"))) [(NInt (20))] [] None 0); (NPlain (raw (lit "
")) IndNone false); (NSet (LAtom (raw (lit "f"))) (NLambda [([], (raw (lit "c")), NNone); ([], (raw (lit "a")), NNone); ([], (raw (lit "b")), NNone)] (NApply (NApply (NVar (RList []) (raw (lit "range"))) [(NVar (RList []) (raw (lit "c")))] [] None 0) [(NLambda [([], (raw (lit "i")), NNone)] (NApply (NCond (NVar (RList []) (raw (lit "i"))) (NVar (RList []) (raw (lit "b"))) (NVar (RList []) (raw (lit "a")))) [] [] None 0))] [] None 0))); (NPlain (raw (lit "
")) IndNone false); (NApply (NLambda [([], (raw (lit "n")), NNone)] (NApply (NVar (RList []) (raw (lit "f"))) [(NVar (RList []) (raw (lit "n"))); (NVar (RList []) (raw (lit "A"))); (NVar (RList []) (raw (lit "B")))] [] None 0)) [(NInt (3))] [] None 0); (NPlain (raw (lit "
")) IndNone false)] 0 0).
Definition eval_09_result : text := (lit "
7
'True'
'False'
'True'
'False'
'F'
10
1
479001600
8683317618811886495518194401280000000 //max is ~1200
    ""0000""
        ""BAD""
    ""0000""
        ""BAD""
    // macro
    ""0000""
        ""BAD""
    ""0000""
        ""BAD""
ABB
").

Definition eval_10_source : text := (lit "
($set fib1 \n.($n ? ($lt n 2) | ($add ($fib1 ($sub n 1)) ($fib1 ($sub n 2)))))
($set if \cond.\then:[].\else:[].($ then ? cond | else))
($set fib \n.($if ($lt n 2) n ($add ($fib ($sub n 1)) ($fib ($sub n 2)))))
($set fib2 \n.($n ? { n < 2 } | {($fib2 { n - 1 }) + ($fib2 { n - 2 })}))
($fib 10)
($fib1 10)
($ {($fib2 1) + ($fib2 2) + ($fib2 3) - ($fib2 6)})
($set ( a b )( 5 10 ))
($set c { a + b })
(${ int(( b + c - 2 ) * 3.5 / a )})
($set f \a.($  {a + 1}))
($set g \a.($f {a + 2}))
($set h \a.($g {a + 3}))
($h 4)
").
Definition eval_10_tree : node :=
  (NText [(NPlain (raw (lit "
")) IndNone false); (NSet (LAtom (raw (lit "fib1"))) (NLambda [([], (raw (lit "n")), NNone)] (NApply (NCond (NApply (NVar (RList []) (raw (lit "lt"))) [(NVar (RList []) (raw (lit "n"))); (NInt (2))] [] None 0) (NVar (RList []) (raw (lit "n"))) (NApply (NVar (RList []) (raw (lit "add"))) [(NApply (NVar (RList []) (raw (lit "fib1"))) [(NApply (NVar (RList []) (raw (lit "sub"))) [(NVar (RList []) (raw (lit "n"))); (NInt (1))] [] None 0)] [] None 0); (NApply (NVar (RList []) (raw (lit "fib1"))) [(NApply (NVar (RList []) (raw (lit "sub"))) [(NVar (RList []) (raw (lit "n"))); (NInt (2))] [] None 0)] [] None 0)] [] None 0)) [] [] None 0))); (NPlain (raw (lit "
")) IndNone false); (NSet (LAtom (raw (lit "if"))) (NLambda [([], (raw (lit "cond")), NNone); ([], (raw (lit "then")), (NText [] 0 0)); ([], (raw (lit "else")), (NText [] 0 0))] (NApply (NCond (NVar (RList []) (raw (lit "cond"))) (NVar (RList []) (raw (lit "then"))) (NVar (RList []) (raw (lit "else")))) [] [] None 0))); (NPlain (raw (lit "
")) IndNone false); (NSet (LAtom (raw (lit "fib"))) (NLambda [([], (raw (lit "n")), NNone)] (NApply (NVar (RList []) (raw (lit "if"))) [(NApply (NVar (RList []) (raw (lit "lt"))) [(NVar (RList []) (raw (lit "n"))); (NInt (2))] [] None 0); (NVar (RList []) (raw (lit "n"))); (NApply (NVar (RList []) (raw (lit "add"))) [(NApply (NVar (RList []) (raw (lit "fib"))) [(NApply (NVar (RList []) (raw (lit "sub"))) [(NVar (RList []) (raw (lit "n"))); (NInt (1))] [] None 0)] [] None 0); (NApply (NVar (RList []) (raw (lit "fib"))) [(NApply (NVar (RList []) (raw (lit "sub"))) [(NVar (RList []) (raw (lit "n"))); (NInt (2))] [] None 0)] [] None 0)] [] None 0)] [] None 0))); (NPlain (raw (lit "
")) IndNone false); (NSet (LAtom (raw (lit "fib2"))) (NLambda [([], (raw (lit "n")), NNone)] (NApply (NCond (NInfix (NText [(NPlain (raw (lit " n < 2 ")) IndNone false)] 0 0) None 0) (NVar (RList []) (raw (lit "n"))) (NInfix (NText [(NApply (NVar (RList []) (raw (lit "fib2"))) [(NInfix (NText [(NPlain (raw (lit " n - 1 ")) IndNone false)] 0 0) None 0)] [] None 0); (NPlain (raw (lit " + ")) IndNone false); (NApply (NVar (RList []) (raw (lit "fib2"))) [(NInfix (NText [(NPlain (raw (lit " n - 2 ")) IndNone false)] 0 0) None 0)] [] None 0)] 0 0) None 0)) [] [] None 0))); (NPlain (raw (lit "
")) IndNone false); (NApply (NVar (RList []) (raw (lit "fib"))) [(NInt (10))] [] None 0); (NPlain (raw (lit "
")) IndNone false); (NApply (NVar (RList []) (raw (lit "fib1"))) [(NInt (10))] [] None 0); (NPlain (raw (lit "
")) IndNone false); (NApply (NInfix (NText [(NApply (NVar (RList []) (raw (lit "fib2"))) [(NInt (1))] [] None 0); (NPlain (raw (lit " + ")) IndNone false); (NApply (NVar (RList []) (raw (lit "fib2"))) [(NInt (2))] [] None 0); (NPlain (raw (lit " + ")) IndNone false); (NApply (NVar (RList []) (raw (lit "fib2"))) [(NInt (3))] [] None 0); (NPlain (raw (lit " - ")) IndNone false); (NApply (NVar (RList []) (raw (lit "fib2"))) [(NInt (6))] [] None 0)] 0 0) None 0) [] [] None 0); (NPlain (raw (lit "
")) IndNone false); (NSet (LList [(raw (lit "a")); (raw (lit "b"))]) (NList [(NInt (5)); (NInt (10))])); (NPlain (raw (lit "
")) IndNone false); (NSet (LAtom (raw (lit "c"))) (NInfix (NText [(NPlain (raw (lit " a + b ")) IndNone false)] 0 0) None 0)); (NPlain (raw (lit "
")) IndNone false); (NApply (NInfix (NText [(NPlain (raw (lit " int(( b + c - 2 ) * 3.5 / a )")) IndNone false)] 0 0) None 0) [] [] None 0); (NPlain (raw (lit "
")) IndNone false); (NSet (LAtom (raw (lit "f"))) (NLambda [([], (raw (lit "a")), NNone)] (NApply (NInfix (NText [(NPlain (raw (lit "a + 1")) IndNone false)] 0 0) None 0) [] [] None 0))); (NPlain (raw (lit "
")) IndNone false); (NSet (LAtom (raw (lit "g"))) (NLambda [([], (raw (lit "a")), NNone)] (NApply (NVar (RList []) (raw (lit "f"))) [(NInfix (NText [(NPlain (raw (lit "a + 2")) IndNone false)] 0 0) None 0)] [] None 0))); (NPlain (raw (lit "
")) IndNone false); (NSet (LAtom (raw (lit "h"))) (NLambda [([], (raw (lit "a")), NNone)] (NApply (NVar (RList []) (raw (lit "g"))) [(NInfix (NText [(NPlain (raw (lit "a + 3")) IndNone false)] 0 0) None 0)] [] None 0))); (NPlain (raw (lit "
")) IndNone false); (NApply (NVar (RList []) (raw (lit "h"))) [(NInt (4))] [] None 0); (NPlain (raw (lit "
")) IndNone false)] 0 0).
Definition eval_10_result : text := (lit "
55
55
-4
16
10
").

Definition eval_11_source : text := (lit "
($ ($range 3) (`Q))
($ ($range 10 21 2) \a.($mul a a) \a.($sqrt a) \b.(${'\t' + str(b)}))
($set R (0 2 4 6))
($set A (zero 0 one 1 two 2 three 3))
($set F \p.($p *A))
($set S \p.($mod ""%s "" p ))
($set LOOP \r.\b.($ ($range *r) b))
($set R1 (0 7 2))
($set FL (F S))
($ ($LOOP R1 *FL) ? {($R F S) == ($LOOP R1 *FL)} | ]ERROR ($LOOP R1 *FL) != ($R F S)\[)
($LOOP (0 100 10) \o.($o))
($set R ((0 a) (1 bb) (2 ccc) (3 dddd)))
($R \l.($ \n.\id.[ ($id) = (${n * 11});] *l))
($set L (0 90 180))
($set R ($($L cos) \f.($round f 12)))
(${ '%f %f %f' % tuple(R) })
($set L1 ($LOOP ($len L) \i.($unq ($mod '($%d)' i))))
(${ ' '.join(L1) } *($R))
($(1 2 3))
{
    ($ ($range 3) \i.]
        ($set fn \ii.($ii))($ ($range ($add i 2)) fn),

    \[ )
}
($set fn ( '($\\i.($add i 1))' '($\\i.($i))' '($\\i.($sub i 1))' ))
($set each ($range ($len fn)))
($each \i.[ ($ ($$($i fn)) 10);])
($set a (
    (1 2 3 4 5)
    (6 7 8 9 0)
    (z w r t y)
    (u i o p s)
    (d f g h j)
))
($a \aa.($aa \aaa.[ {($aaa)}]))
($(0 1 2) \i.($(2 3 4) \ii.[ {($i ($ii a))} (($ii ($i a)))]))
($macro _set (name val)($set ($name) ($val)))
($_set five 5)
($mul five five)
($ (add sub mul div) \fn.($fn 8 2 ))
($set q 3)
($macro a (n) ($emit q \d.($add d ($n)) ))
{
    ($emit q inc), ($($range 4) \n.[($a n), ])($q),
}
").
Definition eval_11_tree : node :=
  (NText [(NPlain (raw (lit "
")) IndNone false); (NApply (NApply (NVar (RList []) (raw (lit "range"))) [(NInt (3))] [] None 0) [(NStr (raw (lit "Q")))] [] None 0); (NPlain (raw (lit "
")) IndNone false); (NApply (NApply (NVar (RList []) (raw (lit "range"))) [(NInt (10)); (NInt (21)); (NInt (2))] [] None 0) [(NLambda [([], (raw (lit "a")), NNone)] (NApply (NVar (RList []) (raw (lit "mul"))) [(NVar (RList []) (raw (lit "a"))); (NVar (RList []) (raw (lit "a")))] [] None 0)); (NLambda [([], (raw (lit "a")), NNone)] (NApply (NVar (RList []) (raw (lit "sqrt"))) [(NVar (RList []) (raw (lit "a")))] [] None 0)); (NLambda [([], (raw (lit "b")), NNone)] (NApply (NInfix (NText [(NStr (raw (lit "'\t'"))); (NPlain (raw (lit " + str(b)")) IndNone false)] 0 0) None 0) [] [] None 0))] [] None 0); (NPlain (raw (lit "
")) IndNone false); (NSet (LAtom (raw (lit "R"))) (NList [(NInt (0)); (NInt (2)); (NInt (4)); (NInt (6))])); (NPlain (raw (lit "
")) IndNone false); (NSet (LAtom (raw (lit "A"))) (NList [(NVar (RList []) (raw (lit "zero"))); (NInt (0)); (NVar (RList []) (raw (lit "one"))); (NInt (1)); (NVar (RList []) (raw (lit "two"))); (NInt (2)); (NVar (RList []) (raw (lit "three"))); (NInt (3))])); (NPlain (raw (lit "
")) IndNone false); (NSet (LAtom (raw (lit "F"))) (NLambda [([], (raw (lit "p")), NNone)] (NApply (NVar (RList []) (raw (lit "p"))) [(NEmbed (NVar (RList []) (raw (lit "A"))))] [] None 0))); (NPlain (raw (lit "
")) IndNone false); (NSet (LAtom (raw (lit "S"))) (NLambda [([], (raw (lit "p")), NNone)] (NApply (NVar (RList []) (raw (lit "mod"))) [(NStr (raw (lit """%s """))); (NVar (RList []) (raw (lit "p")))] [] None 0))); (NPlain (raw (lit "
")) IndNone false); (NSet (LAtom (raw (lit "LOOP"))) (NLambda [([], (raw (lit "r")), NNone); ([], (raw (lit "b")), NNone)] (NApply (NApply (NVar (RList []) (raw (lit "range"))) [(NEmbed (NVar (RList []) (raw (lit "r"))))] [] None 0) [(NVar (RList []) (raw (lit "b")))] [] None 0))); (NPlain (raw (lit "
")) IndNone false); (NSet (LAtom (raw (lit "R1"))) (NList [(NInt (0)); (NInt (7)); (NInt (2))])); (NPlain (raw (lit "
")) IndNone false); (NSet (LAtom (raw (lit "FL"))) (NList [(NVar (RList []) (raw (lit "F"))); (NVar (RList []) (raw (lit "S")))])); (NPlain (raw (lit "
")) IndNone false); (NApply (NCond (NInfix (NText [(NApply (NVar (RList []) (raw (lit "R"))) [(NVar (RList []) (raw (lit "F"))); (NVar (RList []) (raw (lit "S")))] [] None 0); (NPlain (raw (lit " == ")) IndNone false); (NApply (NVar (RList []) (raw (lit "LOOP"))) [(NVar (RList []) (raw (lit "R1"))); (NEmbed (NVar (RList []) (raw (lit "FL"))))] [] None 0)] 0 0) None 0) (NApply (NVar (RList []) (raw (lit "LOOP"))) [(NVar (RList []) (raw (lit "R1"))); (NEmbed (NVar (RList []) (raw (lit "FL"))))] [] None 0) (NText [(NPlain (raw (lit "ERROR ")) IndNone false); (NApply (NVar (RList []) (raw (lit "LOOP"))) [(NVar (RList []) (raw (lit "R1"))); (NEmbed (NVar (RList []) (raw (lit "FL"))))] [] None 0); (NPlain (raw (lit " != ")) IndNone false); (NApply (NVar (RList []) (raw (lit "R"))) [(NVar (RList []) (raw (lit "F"))); (NVar (RList []) (raw (lit "S")))] [] None 0)] 0 0)) [] [] None 0); (NPlain (raw (lit "
")) IndNone false); (NApply (NVar (RList []) (raw (lit "LOOP"))) [(NList [(NInt (0)); (NInt (100)); (NInt (10))]); (NLambda [([], (raw (lit "o")), NNone)] (NApply (NVar (RList []) (raw (lit "o"))) [] [] None 0))] [] None 0); (NPlain (raw (lit "
")) IndNone false); (NSet (LAtom (raw (lit "R"))) (NList [(NList [(NInt (0)); (NVar (RList []) (raw (lit "a")))]); (NList [(NInt (1)); (NVar (RList []) (raw (lit "bb")))]); (NList [(NInt (2)); (NVar (RList []) (raw (lit "ccc")))]); (NList [(NInt (3)); (NVar (RList []) (raw (lit "dddd")))])])); (NPlain (raw (lit "
")) IndNone false); (NApply (NVar (RList []) (raw (lit "R"))) [(NLambda [([], (raw (lit "l")), NNone)] (NApply (NLambda [([], (raw (lit "n")), NNone); ([], (raw (lit "id")), NNone)] (NText [(NPlain (raw (lit " ")) IndNone false); (NApply (NVar (RList []) (raw (lit "id"))) [] [] None 0); (NPlain (raw (lit " = ")) IndNone false); (NApply (NInfix (NText [(NPlain (raw (lit "n * 11")) IndNone false)] 0 0) None 0) [] [] None 0); (NPlain (raw (lit ";")) IndNone false)] 0 0)) [(NEmbed (NVar (RList []) (raw (lit "l"))))] [] None 0))] [] None 0); (NPlain (raw (lit "
")) IndNone false); (NSet (LAtom (raw (lit "L"))) (NList [(NInt (0)); (NInt (90)); (NInt (180))])); (NPlain (raw (lit "
")) IndNone false); (NSet (LAtom (raw (lit "R"))) (NApply (NApply (NVar (RList []) (raw (lit "L"))) [(NVar (RList []) (raw (lit "cos")))] [] None 0) [(NLambda [([], (raw (lit "f")), NNone)] (NApply (NVar (RList []) (raw (lit "round"))) [(NVar (RList []) (raw (lit "f"))); (NInt (12))] [] None 0))] [] None 0)); (NPlain (raw (lit "
")) IndNone false); (NApply (NInfix (NText [(NPlain (raw (lit " ")) IndNone false); (NStr (raw (lit "'%f %f %f'"))); (NPlain (raw (lit " % tuple(R) ")) IndNone false)] 0 0) None 0) [] [] None 0); (NPlain (raw (lit "
")) IndNone false); (NSet (LAtom (raw (lit "L1"))) (NApply (NVar (RList []) (raw (lit "LOOP"))) [(NApply (NVar (RList []) (raw (lit "len"))) [(NVar (RList []) (raw (lit "L")))] [] None 0); (NLambda [([], (raw (lit "i")), NNone)] (NApply (NVar (RList []) (raw (lit "unq"))) [(NApply (NVar (RList []) (raw (lit "mod"))) [(NStr (raw (lit "'($%d)'"))); (NVar (RList []) (raw (lit "i")))] [] None 0)] [] None 0))] [] None 0)); (NPlain (raw (lit "
")) IndNone false); (NApply (NInfix (NText [(NPlain (raw (lit " ")) IndNone false); (NStr (raw (lit "' '"))); (NPlain (raw (lit ".join(L1) ")) IndNone false)] 0 0) None 0) [(NEmbed (NApply (NVar (RList []) (raw (lit "R"))) [] [] None 0))] [] None 0); (NPlain (raw (lit "
")) IndNone false); (NApply (NList [(NInt (1)); (NInt (2)); (NInt (3))]) [] [] None 0); (NPlain (raw (lit "
{
    ")) IndNone false); (NApply (NApply (NVar (RList []) (raw (lit "range"))) [(NInt (3))] [] None 0) [(NLambda [([], (raw (lit "i")), NNone)] (NText [(NPlain (raw (lit "        ")) IndNone false); (NSet (LAtom (raw (lit "fn"))) (NLambda [([], (raw (lit "ii")), NNone)] (NApply (NVar (RList []) (raw (lit "ii"))) [] [] None 0))); (NApply (NApply (NVar (RList []) (raw (lit "range"))) [(NApply (NVar (RList []) (raw (lit "add"))) [(NVar (RList []) (raw (lit "i"))); (NInt (2))] [] None 0)] [] None 0) [(NVar (RList []) (raw (lit "fn")))] [] None 0); (NPlain (raw (lit ",
")) IndNone false)] 0 0))] [] None 0); (NPlain (raw (lit "
}
")) IndNone false); (NSet (LAtom (raw (lit "fn"))) (NList [(NStr (raw (lit "'($\\i.($add i 1))'"))); (NStr (raw (lit "'($\\i.($i))'"))); (NStr (raw (lit "'($\\i.($sub i 1))'")))])); (NPlain (raw (lit "
")) IndNone false); (NSet (LAtom (raw (lit "each"))) (NApply (NVar (RList []) (raw (lit "range"))) [(NApply (NVar (RList []) (raw (lit "len"))) [(NVar (RList []) (raw (lit "fn")))] [] None 0)] [] None 0)); (NPlain (raw (lit "
")) IndNone false); (NApply (NVar (RList []) (raw (lit "each"))) [(NLambda [([], (raw (lit "i")), NNone)] (NText [(NPlain (raw (lit " ")) IndNone false); (NApply (NEval (NApply (NApply (NVar (RList []) (raw (lit "i"))) [(NVar (RList []) (raw (lit "fn")))] [] None 0) [] [] None 0) None None) [(NInt (10))] [] None 0); (NPlain (raw (lit ";")) IndNone false)] 0 0))] [] None 0); (NPlain (raw (lit "
")) IndNone false); (NSet (LAtom (raw (lit "a"))) (NList [(NList [(NInt (1)); (NInt (2)); (NInt (3)); (NInt (4)); (NInt (5))]); (NList [(NInt (6)); (NInt (7)); (NInt (8)); (NInt (9)); (NInt (0))]); (NList [(NVar (RList []) (raw (lit "z"))); (NVar (RList []) (raw (lit "w"))); (NVar (RList []) (raw (lit "r"))); (NVar (RList []) (raw (lit "t"))); (NVar (RList []) (raw (lit "y")))]); (NList [(NVar (RList []) (raw (lit "u"))); (NVar (RList []) (raw (lit "i"))); (NVar (RList []) (raw (lit "o"))); (NVar (RList []) (raw (lit "p"))); (NVar (RList []) (raw (lit "s")))]); (NList [(NVar (RList []) (raw (lit "d"))); (NVar (RList []) (raw (lit "f"))); (NVar (RList []) (raw (lit "g"))); (NVar (RList []) (raw (lit "h"))); (NVar (RList []) (raw (lit "j")))])])); (NPlain (raw (lit "
")) IndNone false); (NApply (NVar (RList []) (raw (lit "a"))) [(NLambda [([], (raw (lit "aa")), NNone)] (NApply (NVar (RList []) (raw (lit "aa"))) [(NLambda [([], (raw (lit "aaa")), NNone)] (NText [(NPlain (raw (lit " {")) IndNone false); (NApply (NVar (RList []) (raw (lit "aaa"))) [] [] None 0); (NPlain (raw (lit "}")) IndNone false)] 0 0))] [] None 0))] [] None 0); (NPlain (raw (lit "
")) IndNone false); (NApply (NList [(NInt (0)); (NInt (1)); (NInt (2))]) [(NLambda [([], (raw (lit "i")), NNone)] (NApply (NList [(NInt (2)); (NInt (3)); (NInt (4))]) [(NLambda [([], (raw (lit "ii")), NNone)] (NText [(NPlain (raw (lit " {")) IndNone false); (NApply (NVar (RList []) (raw (lit "i"))) [(NApply (NVar (RList []) (raw (lit "ii"))) [(NVar (RList []) (raw (lit "a")))] [] None 0)] [] None 0); (NPlain (raw (lit "} (")) IndNone false); (NApply (NVar (RList []) (raw (lit "ii"))) [(NApply (NVar (RList []) (raw (lit "i"))) [(NVar (RList []) (raw (lit "a")))] [] None 0)] [] None 0); (NPlain (raw (lit ")")) IndNone false)] 0 0))] [] None 0))] [] None 0); (NPlain (raw (lit "
")) IndNone false); (NMacro (raw (lit "_set")) [(raw (lit "name")); (raw (lit "val"))] (lit "($set ($name) ($val))")); (NPlain (raw (lit "
")) IndNone false); (NApply (NVar (RList []) (raw (lit "_set"))) [(NVar (RList []) (raw (lit "five"))); (NInt (5))] [] None 0); (NPlain (raw (lit "
")) IndNone false); (NApply (NVar (RList []) (raw (lit "mul"))) [(NVar (RList []) (raw (lit "five"))); (NVar (RList []) (raw (lit "five")))] [] None 0); (NPlain (raw (lit "
")) IndNone false); (NApply (NList [(NVar (RList []) (raw (lit "add"))); (NVar (RList []) (raw (lit "sub"))); (NVar (RList []) (raw (lit "mul"))); (NVar (RList []) (raw (lit "div")))]) [(NLambda [([], (raw (lit "fn")), NNone)] (NApply (NVar (RList []) (raw (lit "fn"))) [(NInt (8)); (NInt (2))] [] None 0))] [] None 0); (NPlain (raw (lit "
")) IndNone false); (NSet (LAtom (raw (lit "q"))) (NInt (3))); (NPlain (raw (lit "
")) IndNone false); (NMacro (raw (lit "a")) [(raw (lit "n"))] (lit " ($emit q \d.($add d ($n)) )")); (NPlain (raw (lit "
{
    ")) IndNone false); (NEmit (RList []) (raw (lit "q")) (NVar (RList []) (raw (lit "inc")))); (NPlain (raw (lit ", ")) IndNone false); (NApply (NApply (NVar (RList []) (raw (lit "range"))) [(NInt (4))] [] None 0) [(NLambda [([], (raw (lit "n")), NNone)] (NText [(NApply (NVar (RList []) (raw (lit "a"))) [(NVar (RList []) (raw (lit "n")))] [] None 0); (NPlain (raw (lit ", ")) IndNone false)] 0 0))] [] None 0); (NApply (NVar (RList []) (raw (lit "q"))) [] [] None 0); (NPlain (raw (lit ",
}
")) IndNone false)] 0 0).
Definition eval_11_result : text := (lit "
QQQ
10.0	12.0	14.0	16.0	18.0	20.0
""zero """"one """"two """"three ""
0102030405060708090
a = 0; bb = 11; ccc = 22; dddd = 33;
1.000000 -0.448074 -0.598460
1.0 -0.448073616129 -0.598460069058
123
{
    01,
    012,
    0123,

}
11; 10; 9;
{1} {2} {3} {4} {5} {6} {7} {8} {9} {0} {z} {w} {r} {t} {y} {u} {i} {o} {p} {s} {d} {f} {g} {h} {j}
{z} (3) {u} (4) {d} (5) {w} (8) {i} (9) {f} (0) {r} (r) {o} (t) {g} (y)
25
106164.0
{
    3, 4, 4, 5, 7, 10,
}
").

Definition eval_12_source : text := (lit "
($! dict )
($set name    ( ch      f       i    ))
($set type    ( char    float   int  ))
($set length  ( 1       2       4    ))
($set default ( 1       0.2     -10  ))
($set delta   ( 0       0.2     10   )) /* dict */
($ ($range ($len name)) \i.]
    ($set l ($i length)) ($set val ($i default)) ($set d ($i delta))
    ($i type) ($i name)($ [[($l)]] ? { l > 1 }) = ($ [{ ($ ($range l) \ii.[(${} val + ( d * ii )), ])}] ? { l > 1 } | val);

\[ )
($! macro dict )
($macro dict (id cols body)
    ($set cols-($id) ($range ($len (($cols)) )))
    ($set each-($id) ($range ($len (($body)) )))
    ($set (($cols))
        ($cols-($id) \i.($each-($id) \ii.($i ($ii (($body)) ))))
    )
)
($dict D
    (` name     type             length  default  format   )
    (`
    (  app      char             5       ""yupp""   ""\n%s ""  )
    (  release  float            1       0.5      ""%.1f""   )
    (  pre      char             1       'a'      ""%c""     )
    (  number   (`unsigned int)  1       1        ""%d""     )
    )
)
($each-D \i.]
    ($set dim [[($i length)]] ? { ($i length) > 1 })
    ($i type) ($i name)($dim) = ($i default);

\[ )
($each-D \i.]
    printf(($i format), ($i name));

\[ )
($macro dict (id cols body)
    ($set each-($id) ($range ($len (($body)) )))
    ($set (($cols))
        ($ ($range ($len ($split (`($cols)) ))) \i.($ (($body)) \var.($i var)))
    )
)
($dict D1
    (` name  type  length  default  format )
    (`
    (  s     char  5       ""abc""    ""%s""   )
    (  c     char  1       'a'      ""%c""   )
    (  d     int   4       1        ""%d""   )
    )
)
($each-D1 \i.]
    ($set dim [[($i length)]] ? { ($i length) > 1 })
    ($i type) ($i name)($dim) = ($i default);

\[ )
").
Definition eval_12_tree : node :=
  (NText [(NPlain (raw (lit "
")) IndNone false); NComment; (NPlain (raw (lit "
")) IndNone false); (NSet (LAtom (raw (lit "name"))) (NList [(NVar (RList []) (raw (lit "ch"))); (NVar (RList []) (raw (lit "f"))); (NVar (RList []) (raw (lit "i")))])); (NPlain (raw (lit "
")) IndNone false); (NSet (LAtom (raw (lit "type"))) (NList [(NVar (RList []) (raw (lit "char"))); (NVar (RList []) (raw (lit "float"))); (NVar (RList []) (raw (lit "int")))])); (NPlain (raw (lit "
")) IndNone false); (NSet (LAtom (raw (lit "length"))) (NList [(NInt (1)); (NInt (2)); (NInt (4))])); (NPlain (raw (lit "
")) IndNone false); (NSet (LAtom (raw (lit "default"))) (NList [(NInt (1)); (NFloat (lit "0.2")); (NInt (-10))])); (NPlain (raw (lit "
")) IndNone false); (NSet (LAtom (raw (lit "delta"))) (NList [(NInt (0)); (NFloat (lit "0.2")); (NInt (10))])); (NPlain (raw (lit " /* dict */
")) IndNone false); (NApply (NApply (NVar (RList []) (raw (lit "range"))) [(NApply (NVar (RList []) (raw (lit "len"))) [(NVar (RList []) (raw (lit "name")))] [] None 0)] [] None 0) [(NLambda [([], (raw (lit "i")), NNone)] (NText [(NPlain (raw (lit "    ")) IndNone false); (NSet (LAtom (raw (lit "l"))) (NApply (NVar (RList []) (raw (lit "i"))) [(NVar (RList []) (raw (lit "length")))] [] None 0)); (NPlain (raw (lit " ")) IndNone false); (NSet (LAtom (raw (lit "val"))) (NApply (NVar (RList []) (raw (lit "i"))) [(NVar (RList []) (raw (lit "default")))] [] None 0)); (NPlain (raw (lit " ")) IndNone false); (NSet (LAtom (raw (lit "d"))) (NApply (NVar (RList []) (raw (lit "i"))) [(NVar (RList []) (raw (lit "delta")))] [] None 0)); (NPlain (raw (lit "
    ")) IndNone false); (NApply (NVar (RList []) (raw (lit "i"))) [(NVar (RList []) (raw (lit "type")))] [] None 0); (NPlain (raw (lit " ")) IndNone false); (NApply (NVar (RList []) (raw (lit "i"))) [(NVar (RList []) (raw (lit "name")))] [] None 0); (NApply (NCond (NInfix (NText [(NPlain (raw (lit " l > 1 ")) IndNone false)] 0 0) None 0) (NText [(NPlain (raw (lit "[")) IndNone false); (NApply (NVar (RList []) (raw (lit "l"))) [] [] None 0); (NPlain (raw (lit "]")) IndNone false)] 0 0) NNone) [] [] None 0); (NPlain (raw (lit " = ")) IndNone false); (NApply (NCond (NInfix (NText [(NPlain (raw (lit " l > 1 ")) IndNone false)] 0 0) None 0) (NText [(NPlain (raw (lit "{ ")) IndNone false); (NApply (NApply (NVar (RList []) (raw (lit "range"))) [(NVar (RList []) (raw (lit "l")))] [] None 0) [(NLambda [([], (raw (lit "ii")), NNone)] (NText [(NInfix (NText [(NPlain (raw (lit " val + ( d * ii )")) IndNone false)] 0 0) None 0); (NPlain (raw (lit ", ")) IndNone false)] 0 0))] [] None 0); (NPlain (raw (lit "}")) IndNone false)] 0 0) (NVar (RList []) (raw (lit "val")))) [] [] None 0); (NPlain (raw (lit ";
")) IndNone false)] 0 0))] [] None 0); (NPlain (raw (lit "
")) IndNone false); NComment; (NPlain (raw (lit "
")) IndNone false); (NMacro (raw (lit "dict")) [(raw (lit "id")); (raw (lit "cols")); (raw (lit "body"))] (lit "
    ($set cols-($id) ($range ($len (($cols)) )))
    ($set each-($id) ($range ($len (($body)) )))
    ($set (($cols))
        ($cols-($id) \i.($each-($id) \ii.($i ($ii (($body)) ))))
    )
")); (NPlain (raw (lit "
")) IndNone false); (NApply (NVar (RList []) (raw (lit "dict"))) [(NVar (RList []) (raw (lit "D"))); (NStr (raw (lit " name     type             length  default  format   "))); (NStr (raw (lit "
    (  app      char             5       ""yupp""   ""\n%s ""  )
    (  release  float            1       0.5      ""%.1f""   )
    (  pre      char             1       'a'      ""%c""     )
    (  number   (`unsigned int)  1       1        ""%d""     )
    ")))] [] None 0); (NPlain (raw (lit "
")) IndNone false); (NApply (NVar (RList []) (raw (lit "each-D"))) [(NLambda [([], (raw (lit "i")), NNone)] (NText [(NPlain (raw (lit "    ")) IndNone false); (NSet (LAtom (raw (lit "dim"))) (NCond (NInfix (NText [(NPlain (raw (lit " ")) IndNone false); (NApply (NVar (RList []) (raw (lit "i"))) [(NVar (RList []) (raw (lit "length")))] [] None 0); (NPlain (raw (lit " > 1 ")) IndNone false)] 0 0) None 0) (NText [(NPlain (raw (lit "[")) IndNone false); (NApply (NVar (RList []) (raw (lit "i"))) [(NVar (RList []) (raw (lit "length")))] [] None 0); (NPlain (raw (lit "]")) IndNone false)] 0 0) NNone)); (NPlain (raw (lit "
    ")) IndNone false); (NApply (NVar (RList []) (raw (lit "i"))) [(NVar (RList []) (raw (lit "type")))] [] None 0); (NPlain (raw (lit " ")) IndNone false); (NApply (NVar (RList []) (raw (lit "i"))) [(NVar (RList []) (raw (lit "name")))] [] None 0); (NApply (NVar (RList []) (raw (lit "dim"))) [] [] None 0); (NPlain (raw (lit " = ")) IndNone false); (NApply (NVar (RList []) (raw (lit "i"))) [(NVar (RList []) (raw (lit "default")))] [] None 0); (NPlain (raw (lit ";
")) IndNone false)] 0 0))] [] None 0); (NPlain (raw (lit "
")) IndNone false); (NApply (NVar (RList []) (raw (lit "each-D"))) [(NLambda [([], (raw (lit "i")), NNone)] (NText [(NPlain (raw (lit "    printf(")) IndNone false); (NApply (NVar (RList []) (raw (lit "i"))) [(NVar (RList []) (raw (lit "format")))] [] None 0); (NPlain (raw (lit ", ")) IndNone false); (NApply (NVar (RList []) (raw (lit "i"))) [(NVar (RList []) (raw (lit "name")))] [] None 0); (NPlain (raw (lit ");
")) IndNone false)] 0 0))] [] None 0); (NPlain (raw (lit "
")) IndNone false); (NMacro (raw (lit "dict")) [(raw (lit "id")); (raw (lit "cols")); (raw (lit "body"))] (lit "
    ($set each-($id) ($range ($len (($body)) )))
    ($set (($cols))
        ($ ($range ($len ($split (`($cols)) ))) \i.($ (($body)) \var.($i var)))
    )
")); (NPlain (raw (lit "
")) IndNone false); (NApply (NVar (RList []) (raw (lit "dict"))) [(NVar (RList []) (raw (lit "D1"))); (NStr (raw (lit " name  type  length  default  format "))); (NStr (raw (lit "
    (  s     char  5       ""abc""    ""%s""   )
    (  c     char  1       'a'      ""%c""   )
    (  d     int   4       1        ""%d""   )
    ")))] [] None 0); (NPlain (raw (lit "
")) IndNone false); (NApply (NVar (RList []) (raw (lit "each-D1"))) [(NLambda [([], (raw (lit "i")), NNone)] (NText [(NPlain (raw (lit "    ")) IndNone false); (NSet (LAtom (raw (lit "dim"))) (NCond (NInfix (NText [(NPlain (raw (lit " ")) IndNone false); (NApply (NVar (RList []) (raw (lit "i"))) [(NVar (RList []) (raw (lit "length")))] [] None 0); (NPlain (raw (lit " > 1 ")) IndNone false)] 0 0) None 0) (NText [(NPlain (raw (lit "[")) IndNone false); (NApply (NVar (RList []) (raw (lit "i"))) [(NVar (RList []) (raw (lit "length")))] [] None 0); (NPlain (raw (lit "]")) IndNone false)] 0 0) NNone)); (NPlain (raw (lit "
    ")) IndNone false); (NApply (NVar (RList []) (raw (lit "i"))) [(NVar (RList []) (raw (lit "type")))] [] None 0); (NPlain (raw (lit " ")) IndNone false); (NApply (NVar (RList []) (raw (lit "i"))) [(NVar (RList []) (raw (lit "name")))] [] None 0); (NApply (NVar (RList []) (raw (lit "dim"))) [] [] None 0); (NPlain (raw (lit " = ")) IndNone false); (NApply (NVar (RList []) (raw (lit "i"))) [(NVar (RList []) (raw (lit "default")))] [] None 0); (NPlain (raw (lit ";
")) IndNone false)] 0 0))] [] None 0); (NPlain (raw (lit "
")) IndNone false)] 0 0).
Definition eval_12_result : text := (lit "
/* dict */
char ch = 1;
float f[2] = { 0.2, 0.4, };
int i[4] = { -10, 0, 10, 20, };

char app[5] = ""yupp"";
float release = 0.5;
char pre = 'a';
unsigned int number = 1;

printf(""\n%s "", app);
printf(""%.1f"", release);
printf(""%c"", pre);
printf(""%d"", number);

char s[5] = ""abc"";
char c = 'a';
int d[4] = 1;

").

Definition eval_13_source : text := (lit "
($import stdlib)
($let x 10 ($\i.($mul i x) { 15.6 + x }))
($x) ($! 'x' must be unbound here)
($let (pow2 pow4) (\i.($mul i i) \i.($pow2 ($pow2 i))) ($pow2 ($pow4 2)))
($! unfold)
($set planet (Mercury Venus Earth Mars Jupiter Saturn Uranus Neptune))
($set delim ($reversed ($unfold ($len planet) [] [($SPACE)and ] [, ])))
($($range ($len planet)) \i.[($i planet)($i delim)])
").
Definition eval_13_tree : node :=
  (NText [(NPlain (raw (lit "
")) IndNone false); NImportBegin; NComment; (NPlain (raw (lit "
")) IndNone false); (NMacro (raw (lit "dict")) [(raw (lit "id")); (raw (lit "cols")); (raw (lit "body"))] (lit "
	($set cols-($id) ($range ($len (($cols)) )))
	($set each-($id) ($range ($len (($body)) )))
	($set (($cols))
		($cols-($id) \__i.($ (($body)) \__var.($__i __var)))
	)
")); (NPlain (raw (lit "

")) IndNone false); NComment; (NPlain (raw (lit "
")) IndNone false); (NSet (LAtom (raw (lit "if"))) (NLambda [([], (raw (lit "cond")), NNone); ([], (raw (lit "then")), (NText [] 0 0)); ([], (raw (lit "else")), (NText [] 0 0))] (NApply (NCond (NVar (RList []) (raw (lit "cond"))) (NVar (RList []) (raw (lit "then"))) (NVar (RList []) (raw (lit "else")))) [] [] None 0))); (NPlain (raw (lit "

")) IndNone false); NComment; (NPlain (raw (lit "
")) IndNone false); (NSet (LAtom (raw (lit "unless"))) (NLambda [([], (raw (lit "cond")), NNone); ([], (raw (lit "then")), (NText [] 0 0)); ([], (raw (lit "else")), (NText [] 0 0))] (NApply (NCond (NVar (RList []) (raw (lit "cond"))) (NVar (RList []) (raw (lit "else"))) (NVar (RList []) (raw (lit "then")))) [] [] None 0))); (NPlain (raw (lit "

")) IndNone false); NComment; (NPlain (raw (lit "
")) IndNone false); (NSet (LAtom (raw (lit "unfold"))) (NLambda [([], (raw (lit "count")), NNone); ([], (raw (lit "...")), NNone)] (NLet (LList [(raw (lit "__last")); (raw (lit "__func"))]) (NList [(NApply (NVar (RList []) (raw (lit "sub"))) [(NApply (NVar (RList []) (raw (lit "len"))) [(NApply (NVar (RList []) (raw (lit "lazy"))) [(NVar (RList []) (raw (lit "__va_args__")))] [] None 0)] [] None 0); (NInt (1))] [] None 0); (NApply (NVar (RList []) (raw (lit "__last"))) [(NApply (NVar (RList []) (raw (lit "lazy"))) [(NVar (RList []) (raw (lit "__va_args__")))] [] None 0)] [] None 0)]) (NApply (NApply (NVar (RList []) (raw (lit "range"))) [(NVar (RList []) (raw (lit "count")))] [] None 0) [(NLambda [([], (raw (lit "__i")), NNone)] (NApply (NVar (RList []) (raw (lit "if"))) [(NInfix (NText [(NPlain (raw (lit " __i < __last ")) IndNone false)] 0 0) None 0); (NApply (NVar (RList []) (raw (lit "__i"))) [(NApply (NVar (RList []) (raw (lit "lazy"))) [(NVar (RList []) (raw (lit "__va_args__")))] [] None 0)] [] None 0); (NApply (NVar (RList []) (raw (lit "__func"))) [(NVar (RList []) (raw (lit "__i")))] [] None 0)] [] None 0))] [] None 0)))); (NPlain (raw (lit "

")) IndNone false); NComment; (NPlain (raw (lit "
")) IndNone false); (NMacro (raw (lit "do")) [(raw (lit "body"))] (lit "do {
($body)
} while ( 0 )")); (NPlain (raw (lit "

")) IndNone false); NComment; (NPlain (raw (lit "
")) IndNone false); (NMacro (raw (lit "foo")) [(raw (lit "body"))] (lit "({
($body)
})")); (NPlain (raw (lit "

")) IndNone false); NComment; (NPlain (raw (lit "
")) IndNone false); (NSet (LAtom (raw (lit "__EOL__"))) (NCond (NApply (NVar (RList []) (raw (lit "not"))) [(NApply (NVar (RList []) (raw (lit "isatom"))) [(NVar (RList []) (raw (lit "EOL")))] [] None 0)] [] None 0) (NVar (RList []) (raw (lit "EOL"))) (NText [(NPlain (raw (lit "
")) IndNone false)] 0 0))); (NPlain (raw (lit "
")) IndNone false); (NSet (LAtom (raw (lit "define"))) (NLambda [([], (raw (lit "sig")), NNone); ([], (raw (lit "body")), NNone)] (NApply (NVar (RList []) (raw (lit "join"))) [(NApply (NVar (RList []) (raw (lit "split"))) [(NText [(NApply (NVar (RList []) (raw (lit "unq"))) [(NStr (raw (lit """#define""")))] [] None 0); (NPlain (raw (lit " ")) IndNone false); (NApply (NVar (RList []) (raw (lit "sig"))) [] [] None 0); (NPlain (raw (lit " ")) IndNone false); (NApply (NVar (RList []) (raw (lit "body"))) [] [] None 0)] 0 0); (NVar (RList []) (raw (lit "__EOL__")))] [] None 0); (NText [(NPlain (raw (lit " \")) IndNone false); (NApply (NVar (RList []) (raw (lit "__EOL__"))) [] [] None 0)] 0 0)] [] None 0))); (NPlain (raw (lit "

")) IndNone false); NComment; (NPlain (raw (lit "
")) IndNone false); (NMacro (raw (lit "def")) [(raw (lit "name"))] (lit "($set ($name) 1)
($unq ""#define"") ($name)")); (NPlain (raw (lit "

")) IndNone false); NComment; (NPlain (raw (lit "
")) IndNone false); (NMacro (raw (lit "undef")) [(raw (lit "name"))] (lit "($set ($name) 0)
($unq ""#undef"")  ($name)")); (NPlain (raw (lit "

")) IndNone false); NComment; (NPlain (raw (lit "
")) IndNone false); (NMacro (raw (lit "def-if")) [(raw (lit "cond")); (raw (lit "name"))] (lit "($set ($name) 1 ? ($cond) | 0)
($if ($name) [($unq ""#define"") ($name)])")); (NPlain (raw (lit "

")) IndNone false); NComment; (NPlain (raw (lit "
")) IndNone false); (NMacro (raw (lit "skip-if")) [(raw (lit "cond"))] (lit "($if ($cond) ($skip))")); (NPlain (raw (lit "
")) IndNone false); (NMacro (raw (lit "skip-if-not")) [(raw (lit "cond"))] (lit "($if ($not ($cond)) ($skip))")); (NPlain (raw (lit "

")) IndNone false); NComment; (NPlain (raw (lit "
")) IndNone false); (NSet (LAtom (raw (lit "BIN"))) (NLambda [([], (raw (lit "b")), NNone)] (NApply (NVar (RList []) (raw (lit "atoi"))) [(NVar (RList []) (raw (lit "b"))); (NInt (2))] [] None 0))); (NPlain (raw (lit "

")) IndNone false); NComment; (NPlain (raw (lit "
")) IndNone false); (NSet (LAtom (raw (lit "BB"))) (NLambda [([], (raw (lit "...")), NNone)] (NApply (NVar (RList []) (raw (lit "sum"))) [(NApply (NApply (NVar (RList []) (raw (lit "range"))) [(NApply (NVar (RList []) (raw (lit "len"))) [(NVar (RList []) (raw (lit "__va_args__")))] [] None 0)] [] None 0) [(NLambda [([], (raw (lit "__i")), NNone)] (NInfix (NText [(NPlain (raw (lit " ")) IndNone false); (NApply (NVar (RList []) (raw (lit "BIN"))) [(NApply (NVar (RList []) (raw (lit "__i"))) [(NApply (NVar (RList []) (raw (lit "reversed"))) [(NVar (RList []) (raw (lit "__va_args__")))] [] None 0)] [] None 0)] [] None 0); (NPlain (raw (lit " << ")) IndNone false); (NApply (NVar (RList []) (raw (lit "__i"))) [] [] None 0); (NPlain (raw (lit " * 8 ")) IndNone false)] 0 0) None 0))] [] None 0)] [] None 0))); (NPlain (raw (lit "

")) IndNone false); NComment; (NPlain (raw (lit "
")) IndNone false); (NSet (LAtom (raw (lit "def-fn-argv"))) (NLambda [([], (raw (lit "type")), NNone); ([], (raw (lit "name")), NNone); ([(raw (lit "type")); (raw (lit "arg-begin")); (raw (lit "arg-count")); (raw (lit "arg-value")); (raw (lit "arg-end"))], (raw (lit "body")), NNone)] (NText [(NApply (NVar (RList []) (raw (lit "type"))) [] [] None 0); (NPlain (raw (lit " ")) IndNone false); (NApply (NVar (RList []) (raw (lit "name"))) [] [] None 0); (NPlain (raw (lit "( int argcnt, ... )
{
	")) IndNone false); (NApply (NVar (RList []) (raw (lit "body"))) [] [((raw (lit "type")), (NVar (RList []) (raw (lit "type")))); ((raw (lit "arg-begin")), (NText [(NPlain (raw (lit "		va_list argptr;
		va_start( argptr, argcnt );")) IndNone false)] 0 0)); ((raw (lit "arg-count")), (NText [(NPlain (raw (lit "		argcnt")) IndNone false)] 0 0)); ((raw (lit "arg-value")), (NLambda [([], (raw (lit "type")), NNone)] (NText [(NPlain (raw (lit "		va_arg( argptr, ")) IndNone false); (NApply (NVar (RList []) (raw (lit "type"))) [] [] None 0); (NPlain (raw (lit " )")) IndNone false)] 0 0))); ((raw (lit "arg-end")), (NText [(NPlain (raw (lit "		va_end( argptr );")) IndNone false)] 0 0))] None 0); (NPlain (raw (lit "
}")) IndNone false)] 0 0))); (NPlain (raw (lit "

")) IndNone false); (NSet (LAtom (raw (lit "INT_MAX"))) (NInfix (NText [(NPlain (raw (lit " sys.maxsize ")) IndNone false)] 0 0) None 0)); (NPlain (raw (lit "

")) IndNone false); (NSet (LAtom (raw (lit "INT_MIN"))) (NInfix (NText [(NPlain (raw (lit " -sys.maxsize - 1 ")) IndNone false)] 0 0) None 0)); (NPlain (raw (lit "
")) IndNone false); NImportEnd; (NPlain (raw (lit "
")) IndNone false); (NLet (LAtom (raw (lit "x"))) (NInt (10)) (NApply (NLambda [([], (raw (lit "i")), NNone)] (NApply (NVar (RList []) (raw (lit "mul"))) [(NVar (RList []) (raw (lit "i"))); (NVar (RList []) (raw (lit "x")))] [] None 0)) [(NInfix (NText [(NPlain (raw (lit " 15.6 + x ")) IndNone false)] 0 0) None 0)] [] None 0)); (NPlain (raw (lit "
")) IndNone false); (NApply (NVar (RList []) (raw (lit "x"))) [] [] None 0); (NPlain (raw (lit " ")) IndNone false); NComment; (NPlain (raw (lit "
")) IndNone false); (NLet (LList [(raw (lit "pow2")); (raw (lit "pow4"))]) (NList [(NLambda [([], (raw (lit "i")), NNone)] (NApply (NVar (RList []) (raw (lit "mul"))) [(NVar (RList []) (raw (lit "i"))); (NVar (RList []) (raw (lit "i")))] [] None 0)); (NLambda [([], (raw (lit "i")), NNone)] (NApply (NVar (RList []) (raw (lit "pow2"))) [(NApply (NVar (RList []) (raw (lit "pow2"))) [(NVar (RList []) (raw (lit "i")))] [] None 0)] [] None 0))]) (NApply (NVar (RList []) (raw (lit "pow2"))) [(NApply (NVar (RList []) (raw (lit "pow4"))) [(NInt (2))] [] None 0)] [] None 0)); (NPlain (raw (lit "
")) IndNone false); NComment; (NPlain (raw (lit "
")) IndNone false); (NSet (LAtom (raw (lit "planet"))) (NList [(NVar (RList []) (raw (lit "Mercury"))); (NVar (RList []) (raw (lit "Venus"))); (NVar (RList []) (raw (lit "Earth"))); (NVar (RList []) (raw (lit "Mars"))); (NVar (RList []) (raw (lit "Jupiter"))); (NVar (RList []) (raw (lit "Saturn"))); (NVar (RList []) (raw (lit "Uranus"))); (NVar (RList []) (raw (lit "Neptune")))])); (NPlain (raw (lit "
")) IndNone false); (NSet (LAtom (raw (lit "delim"))) (NApply (NVar (RList []) (raw (lit "reversed"))) [(NApply (NVar (RList []) (raw (lit "unfold"))) [(NApply (NVar (RList []) (raw (lit "len"))) [(NVar (RList []) (raw (lit "planet")))] [] None 0); (NText [] 0 0); (NText [(NApply (NVar (RList []) (raw (lit "SPACE"))) [] [] None 0); (NPlain (raw (lit "and ")) IndNone false)] 0 0); (NText [(NPlain (raw (lit ", ")) IndNone false)] 0 0)] [] None 0)] [] None 0)); (NPlain (raw (lit "
")) IndNone false); (NApply (NApply (NVar (RList []) (raw (lit "range"))) [(NApply (NVar (RList []) (raw (lit "len"))) [(NVar (RList []) (raw (lit "planet")))] [] None 0)] [] None 0) [(NLambda [([], (raw (lit "i")), NNone)] (NText [(NApply (NVar (RList []) (raw (lit "i"))) [(NVar (RList []) (raw (lit "planet")))] [] None 0); (NApply (NVar (RList []) (raw (lit "i"))) [(NVar (RList []) (raw (lit "delim")))] [] None 0)] 0 0))] [] None 0); (NPlain (raw (lit "
")) IndNone false)] 0 0).
Definition eval_13_result : text := (lit "
256.0
x
256
Mercury, Venus, Earth, Mars, Jupiter, Saturn, Uranus and Neptune
").

Definition eval_14_source : text := (lit "
").
Definition eval_14_tree : node :=
  (NText [(NPlain (raw (lit "
")) IndNone false)] 0 0).
Definition eval_14_result : text := (lit "
").

