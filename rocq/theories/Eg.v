(** * The libraries of /repo/lib and the examples of /repo/eg

    Written by tools/eg.py: each file of the list there, as text. *)
From Coq Require Import String.
Open Scope string_scope.

Definition stdlib_yu : string := "($!
	($dict ID
		(` id_0       id_1       ... id_N )
		(`
		(  id_0_val_0 id_1_val_0 ... id_N_val_0 )
		(  id_0_val_1 id_1_val_1 ... id_N_val_1 )
		                         ...
		(  id_0_val_K id_1_val_K ... id_N_val_K )
		)
	)
	($each-ID \i.($i id_N))
)
($macro dict (id cols body)
	($set cols-($id) ($range ($len (($cols)) )))
	($set each-($id) ($range ($len (($body)) )))
	($set (($cols))
		($cols-($id) \__i.($ (($body)) \__var.($__i __var)))
	)
)

($!
	($if cond [leg_T] [leg_F])
)
($set if \cond.\then:[].\else:[].($ then ? cond | else))

($!
	($unless cond [leg_F] [leg_T])
)
($set unless \cond.\then:[].\else:[].($ else ? cond | then))

($!
	($unfold N [val_0] [val_1] [...] \n.(val_($n)))
)
($set unfold \count.\...($let
	(__last __func) (($sub ($len ($lazy __va_args__)) 1) ($__last ($lazy __va_args__)))
	($($range count) \__i.($if { __i < __last } ($__i ($lazy __va_args__)) ($__func __i)))
))

($!
	($do,,foo(); bar(); )
)
($macro do (body)do {
($body)
} while ( 0 ))

($! ...or using GNU extension )
($macro foo (body)({
($body)
}))

($!
	($define,,array_length( x ),,( sizeof( x ) / sizeof(( x )[ 0 ])))
)
($set __EOL__ EOL ? ($not ($isatom EOL)) | ,,
)
($set define \sig.\body.($join ($split [($unq ""#define"") ($sig) ($body)] __EOL__),, \($__EOL__)))

($!
	($def LINK_MODULE)
)
($macro def (name)($set ($name) 1)
($unq ""#define"") ($name))

($!
	($undef LINK_MODULE)
)
($macro undef (name)($set ($name) 0)
($unq ""#undef"")  ($name))

($!
	($def-if LINK_MODULE LINK_MODULE_TEST)
)
($macro def-if (cond name)($set ($name) 1 ? ($cond) | 0)
($if ($name) [($unq ""#define"") ($name)]))

($!
	($skip-if-not LINK_MODULE)
)
($macro skip-if (cond)($if ($cond) ($skip)))
($macro skip-if-not (cond)($if ($not ($cond)) ($skip)))

($!
	($BIN,,11001010110010100000)
)
($set BIN \b.($atoi b 2))

($!
	($BB,,10110011,,10110010,,10110001,,10110000)
)
($set BB \...($sum ($($range ($len __va_args__)) \__i.{ ($BIN ($__i ($reversed __va_args__))) << ($__i) * 8 })))

($!
	($def-fn-argv int sumi ]
		int result = 0;
		($ &arg-begin)
		while ( ($ &arg-count)-- ) result += ($ &arg-value &type);
		($ &arg-end)
		return ( result );
	[ )
)
($set def-fn-argv \type.\name.\type..\arg-begin..\arg-count..\arg-value..\arg-end..\body.]
($type) ($name)( int argcnt, ... )
{
	($body \type type \arg-begin ]
		va_list argptr;
		va_start( argptr, argcnt );
	[\arg-count ]
		argcnt
	[\arg-value \type.]
		va_arg( argptr, ($type) )
	[\arg-end ]
		va_end( argptr );
	[\body )
}
[ )

($set INT_MAX { sys.maxsize })

($set INT_MIN { -sys.maxsize - 1 })
".
Definition corolib_yu : string := "($!
	($set corolib-use-c-macro 0) to generate direct C source code for coroutines,
	($set corolib-use-c-macro 1) to generate source code based on macro definitions from ""coroutine.h"".
)

($import coroutine)

($skip ? ($not ($0 ? ($isatom corolib-use-c-macro) | corolib-use-c-macro)))

($import coroutine-h)
".
Definition coroutine_yu : string := "($! based on Simon Tatham ""Coroutines in C"")

($!
	($coro-context A);
	($coro-context B);

	($coro-define A ]
		for ( ; ; ) {
			/* ... */
			($coro-yield);
		}
	[ )

	($coro-define B ]
		for ( ; ; ) {
			/* ... */
			($coro-wait cond);
		}
	[ \enter ]
		($coro-local) int b;
	[ )

	int main( void )
	{
		for ( ; ; ) {
			($coro-call A);
			($coro-call B);
		}
		return 0;
	}
)

($import stdlib)

($set __label_iter 0)

($macro coro-h ()
typedef void * co_t;
typedef unsigned int semaphore_t;

enum {
	CO_READY,
	CO_WAIT,
	CO_YIELD,
	CO_END,
	CO_SKIP,
};
)

($macro coro-context (name) co_t co_($name))

($macro coro-context-init (name) co_($name) = NULL)

($macro coro-declare (name) int coro_($name)( co_t *co_p ))

($set coro-define \name.\exit..\coro.\enter:[].\exit:[].]
($coro-declare ($name))
{
	($enter)
	if ( *co_p ) goto **co_p;
	/* begin */
	($coro exit)
	/* end */
	*co_p = &&L__END_($name);

	L__END_($name):
	($exit)
	return CO_END;
}
[\set )

($macro coro-local ()static)

($macro coro-yield ()($do ]
	/* yield */
	($set __label (L__($emit __label_iter inc)))
	*co_p = &&($__label);
	($&exit)
	return CO_YIELD;

	($__label):;
[ ))

($macro coro-wait (cond)($do ]
	/* wait */
	($set __label (L__($emit __label_iter inc)))
	*co_p = &&($__label);

	($__label):
	if (!(($cond))) { /* cond */
		($&exit)
		return CO_WAIT;
	}
[ ))

($macro coro-restart ()($do ]
	/* restart */
	*co_p = NULL;
	($&exit)
	return CO_YIELD;
[ ))

($macro coro-quit ()($do ]
	/* quit */
	*co_p = &&($__label);

	($__label):
	($&exit)
	return CO_END;
[ ))

($macro coro-call (name) coro_($name)( &co_($name) ))

($macro coro-alive (coro) (( ($coro) ) < CO_END ))

($macro coro-wait-coro (coro) ($coro-wait,,!($coro-alive,,($coro))))

($macro semaphore-init (name val) ($name) = ($val))

($macro semaphore-acquire (name)($do ]
	/* acquire */
	($coro-wait,, ($name) > 0 );
	--($name);
[ ))

($macro semaphore-release (name)($do ]
	/* release */
	++($name);
[ ))
".
Definition coroutine_h_yu : string := "($! coroutine-h.yu - a wrapper for coroutine.h )

($!
	($coro-context A);
	($coro-context B);

	($coro-define A ]
		for ( ; ; ) {
			/* ... */
			($coro-yield);
		}
	[ )

	($coro-define B ]
		for ( ; ; ) {
			/* ... */
			($coro-wait cond);
		}
	[ \enter ]
		($coro-local) int b;
	[ )

	int main( void )
	{
		for ( ; ; ) {
			($coro-call A);
			($coro-call B);
		}
		return 0;
	}
)

($macro coro-h ()#include ""coroutine.h"")

($macro coro-context (name) CORO_CONTEXT( ($name) ))

($macro coro-context-init (name) CORO_CONTEXT_INIT( ($name) ))

($macro coro-declare (name) CORO_DEFINE( ($name) ))

($set coro-define \name.\exit..\coro.\enter:[].\exit:[].]
($coro-declare ($name))
{
	($enter)

	CORO_BEGIN();
	/* begin */
	($coro exit)
	/* end */
	CORO_END(($exit));
}
[\set )

($macro coro-local () CORO_LOCAL)

($macro coro-yield () CORO_YIELD(($&exit)))

($macro coro-wait (cond) CORO_WAIT(($cond),($&exit)))

($macro coro-restart () CORO_RESTART(($&exit)))

($macro coro-quit () CORO_QUIT(($&exit)))

($macro coro-call (name) CORO_CALL( ($name) ))

($macro coro-alive (coro) CORO_ALIVE( ($coro) ))

($macro coro-wait-coro (cond) CORO_WAIT_CORO(($cond),($&exit)))

($macro semaphore-init (name val) SEMAPHORE_INIT( ($name), ($val) ))

($macro semaphore-acquire (name) SEMAPHORE_ACQUIRE( ($name),($&exit)))

($macro semaphore-release (name) SEMAPHORE_RELEASE( ($name) ))
".
Definition coroutine_py_yu : string := "($! coroutine-py.yu - coroutines in Python )

($!
    def ($coro A):
        while True:
            # ...
            ($coro-yield)

    def ($coro B):
        while True:
            # ...
            ($coro-wait cond)

    if __name__ == '__main__':
        ($coro-init A)
        ($coro-init B)

        while True:
            ($coro-call A)
            ($coro-call B)

        ($coro-uninit A)
        ($coro-uninit B)
)

($import stdlib)
from future.builtins import next

CO_READY = 0
CO_WAIT  = 1
CO_YIELD = 2
CO_END   = 3
CO_SKIP  = 4

($macro coro (name) coro_($name)())

($macro coro-init (name) ($name) = ($coro ($name)))

($macro coro-uninit (name) ($name).close())

($macro coro-yield () yield CO_YIELD)

($macro coro-wait (cond) while not ( ($cond) ): yield CO_WAIT)

($macro coro-wait-not (cond) while ($cond): yield CO_WAIT)

($macro coro-quit () while True: yield CO_END)

($macro coro-call (name) next( ($name) ))

($macro coro-alive (status) (( ($status) ) < CO_END ))
".
Definition hlib_yu : string := "($!
	($set hlib-light 0) to use full version of storage classes macros,
	($set hlib-light 1) to use light version of storage classes macros.
)

($import h-light)

($skip ? ($0 ? ($isatom hlib-light) | hlib-light))

($import h)
".
Definition h_yu : string := "($!
	($set hlib-light 0)
	($import hlib)
	($h-begin-named)

	($extern) void foo( char *a );
	($extern) char *bar ($init,,""The Blind Beggar"");
	($extern-c) int corge( double val );

	($var,,bool plugh)
	($var-init,,short fred[ 3 ],,{ 7, 11, 13 })

	($var-c,,float flob)
	($var-c-init,,char *xyzzy,,""off"")

	($extern-c-begin)
	($extern) bool waldo( void );
	($extern-c-end)

	($inline) int qux( int a, b ) { return (( a > b ) ? a : b ); }

	($h-end)
)

($macro h-begin (name)
($set h-name ($upper ($name)))
#ifndef ($h-name)_H
#define ($h-name)_H

#ifdef  ($h-name)_IMPLEMENT
#define ($h-name)_EXT
#define ($h-name)_INIT( ... ) \
	= __VA_ARGS__

#ifdef __cplusplus
#define ($h-name)_EXT_C \
	extern ""C""
#else
#define ($h-name)_EXT_C \
	extern
#endif

#define ($h-name)_VAR( decl ) \
	decl
#define ($h-name)_VAR_INIT( decl, ... ) \
	decl = __VA_ARGS__

#ifdef __cplusplus
#define ($h-name)_VAR_C( decl ) \
	extern ""C"" decl; decl
#define ($h-name)_VAR_C_INIT( decl, ... ) \
	extern ""C"" decl; decl = __VA_ARGS__
#else
#define ($h-name)_VAR_C( decl ) \
	decl
#define ($h-name)_VAR_C_INIT( decl, ... ) \
	decl = __VA_ARGS__
#endif

#define ($h-name)_INL

#else  /* ($h-name)_IMPLEMENT */
#define ($h-name)_EXT \
	extern
#define ($h-name)_INIT( ... )

#ifdef __cplusplus
#define ($h-name)_EXT_C \
	extern ""C""
#else
#define ($h-name)_EXT_C \
	extern
#endif

#define ($h-name)_VAR( decl ) \
	extern decl
#define ($h-name)_VAR_INIT( decl, ... ) \
	extern decl

#ifdef __cplusplus
#define ($h-name)_VAR_C( decl ) \
	extern ""C"" decl
#define ($h-name)_VAR_C_INIT( decl, ... ) \
	extern ""C"" decl
#else
#define ($h-name)_VAR_C( decl ) \
	extern decl
#define ($h-name)_VAR_C_INIT( decl, ... ) \
	extern decl
#endif

#if __GNUC__ && !__GNUC_STDC_INLINE__
#define ($h-name)_INL \
	extern inline
#else
#define ($h-name)_INL \
	inline
#endif

#endif /* ($h-name)_IMPLEMENT */
)

($macro h-end ()
#undef ($h-name)_EXT
#undef ($h-name)_INIT
#undef ($h-name)_EXT_C
#undef ($h-name)_VAR
#undef ($h-name)_VAR_INIT
#undef ($h-name)_VAR_C
#undef ($h-name)_VAR_C_INIT
#undef ($h-name)_INL
#endif
)

($macro h-begin-named ()
($set h-name ($__MODULE_NAME__))
($h-begin ($__MODULE_NAME__))
)

($macro implement (name)
#define ($upper ($name))_IMPLEMENT
)

($macro implement-named ()($implement ($__MODULE_NAME__)))

($macro extern-c-begin ()
#ifdef __cplusplus
extern ""C"" {
#endif
)

($macro extern-c-end ()
#ifdef __cplusplus
}
#endif
)

($macro extern ()($h-name)_EXT)
($macro init ( init )($h-name)_INIT( ($init) ))
($macro extern-c ()($h-name)_EXT_C)

($macro var ( dec )($h-name)_VAR( ($dec) );)
($macro var-init ( dec init )($h-name)_VAR_INIT( ($dec), ($init) );)
($macro var-c ( dec )($h-name)_VAR_C( ($dec) );)
($macro var-c-init ( dec init )($h-name)_VAR_C_INIT( ($dec), ($init) );)

($macro inline ()($h-name)_INL)
".
Definition h_light_yu : string := "($!
	($set hlib-light 1)
	($import hlib)
	($h-begin-named)

	($var,,bool plugh)
	($var-init,,short fred[ 3 ],,{ 7, 11, 13 })

	($extern-c-begin)
	($var,,float flob)
	($var-init,,char *xyzzy,,""off"")

	extern bool waldo( void );
	($extern-c-end)

	($inline) int qux( int a, b ) { return (( a > b ) ? a : b ); }

	($h-end)
)

($macro h-begin (name)
($set h-name ($upper ($name)))
#ifndef ($h-name)_H
#define ($h-name)_H

#ifdef  ($h-name)_IMPLEMENT
#define ($h-name)_VAR( decl ) \
	decl
#define ($h-name)_VAR_INIT( decl, ... ) \
	decl = __VA_ARGS__

#define ($h-name)_INL

#else  /* ($h-name)_IMPLEMENT */
#define ($h-name)_VAR( decl ) \
	extern decl
#define ($h-name)_VAR_INIT( decl, ... ) \
	extern decl

#if __GNUC__ && !__GNUC_STDC_INLINE__
#define ($h-name)_INL \
	extern inline
#else
#define ($h-name)_INL \
	inline
#endif

#endif /* ($h-name)_IMPLEMENT */
)

($macro h-end ()
#undef ($h-name)_VAR
#undef ($h-name)_VAR_INIT
#undef ($h-name)_INL
#endif
)

($macro h-begin-named ()
($set h-name ($__MODULE_NAME__))
($h-begin ($__MODULE_NAME__))
)

($macro implement (name)
#define ($upper ($name))_IMPLEMENT
)

($macro implement-named ()($implement ($__MODULE_NAME__)))

($macro extern-c-begin ()
#ifdef __cplusplus
extern ""C"" {
#endif
)

($macro extern-c-end ()
#ifdef __cplusplus
}
#endif
)

($macro var ( dec )($h-name)_VAR( ($dec) );)
($macro var-init ( dec init )($h-name)_VAR_INIT( ($dec), ($init) );)
($macro inline ()($h-name)_INL)
".
Definition hello_yu_c : string := "($set greeting ""Hello world!\n"")

($set name   (  Co       F              Zu           ))
($set type   (  float    double         float        ))
($set val    (  { pi }   (`acos( -1 ))  { 355/113 }  ))
($set format (  ""%.2f""   ""%.10f""        ""%.6f""       ))

($set each-Pi ($range ($len name)))

#include <math.h>
#include <stdio.h>

int main( void )
{
	($each-Pi \i.]
		($i type) ($i name) = ($i val);

	[ )
	printf( ($greeting) );

	($each-Pi \i.]
		printf( ($""($0) = ($1)\n"" ($i name) ($unq ($i format))), ($i name) );

	[ )
	return 0;
}
".
Definition hello_c : string := "#include <math.h>
#include <stdio.h>

int main( void )
{
	float Co = 3.141592653589793;
	double F = acos( -1 );
	float Zu = 3.1415929203539825;

	printf( ""Hello world!\n"" );

	printf( ""Co = %.2f\n"", Co );
	printf( ""F = %.10f\n"", F );
	printf( ""Zu = %.6f\n"", Zu );

	return 0;
}
".
Definition unfold_yu_c : string := "($__TITLE__ 0)

#include <stdio.h>

($import stdlib)

($dict PLANET
	(` NAME     )
	(`
	(  Mercury  )
	(  Venus    )
	(  Earth    )
	(  Mars     )
	(  Jupiter  )
	(  Saturn   )
	(  Uranus   )
	(  Neptune  )
	)
)

($! delimiters: '' - after the last word; ' and ' - after the last but one; ', ' - after the others )
($set delim_tail ([] [($SPACE)and ] [, ]))

($! delimiters for each planet )
($set delim ($reversed ($unfold ($len NAME) *delim_tail)))

int main( void )
{
    printf( ($""Hello ($0)!\n"" ($each-PLANET \i.[($i NAME)($i delim)])) );
    return 0;
}
".
Definition unfold_c : string := "/*  unfold.c was generated by yupp 1.2b1
    out of unfold.yu-c
 */

#include <stdio.h>

int main( void )
{
    printf( ""Hello Mercury, Venus, Earth, Mars, Jupiter, Saturn, Uranus and Neptune!\n"" );
    return 0;
}
".
Definition dict_yu_c : string := "($__TITLE__ 0)

($! This macro is already defined in the standard library - just use ($import stdlib). )
($macro dict (id cols body)
	($set cols-($id) ($range ($len (($cols)) )))
	($set each-($id) ($range ($len (($body)) )))
	($set (($cols))
		($cols-($id) \i.($ (($body)) \var.($i var)))
	)
)

($dict VAR
	(` NAME     TYPE             LEN  DEFAULT  FORMAT   )
	(`
	(  app      char             5    ""yupp""   ""%s ""    )
	(  release  float            1    0.8      ""%.1f""   )
	(  pre      char             1    'b'      ""%c""     )
	(  number   (`unsigned int)  1    8        ""%d""     )
	)
)

#include <stdio.h>

int main( void )
{
	/* Declare variables */
	($each-VAR \i.]
		($set dim [[ ($i LEN) ]] ? ($gt ($i LEN) 1))
		($i TYPE) ($i NAME)($dim) = ($i DEFAULT);

	[ )
	printf( ($""($0)\n"" ($unq ($__FILE__))) );

	/* Print variables */
	($each-VAR \i.]
		printf( ($i FORMAT), ($i NAME) );

	[ )
	return 0;
}
".
Definition dict_c : string := "/*  dict.c was generated by yupp 1.2b1
    out of dict.yu-c
 */

#include <stdio.h>

int main( void )
{
	/* Declare variables */
	char app[ 5 ] = ""yupp"";
	float release = 0.8;
	char pre = 'b';
	unsigned int number = 8;

	printf( ""dict.yu-c\n"" );

	/* Print variables */
	printf( ""%s "", app );
	printf( ""%.1f"", release );
	printf( ""%c"", pre );
	printf( ""%d"", number );

	return 0;
}
".
Definition argv_yu_c : string := "($__TITLE__)

#include <stdarg.h>
#include <stdio.h>

($set def-fn-argv \type.\name.\type..\arg-begin..\arg-count..\arg-value..\arg-end..\body.]
($type) ($name)( int argcnt, ... )
{
    ($body \type type \arg-begin ]
        va_list argptr;
        va_start( argptr, argcnt );
    [\arg-count ]
        argcnt
    [\arg-value \type.]
        va_arg( argptr, ($type) )
    [\arg-end ]
        va_end( argptr );
    [\body )
}
[\set )

($def-fn-argv \type int \name sumi ]
    int result = 0;
    ($ &arg-begin)
    while ( ($ &arg-count)-- ) result += ($ &arg-value &type);
    ($ &arg-end)
    return ( result );
[\def-fn-argv )

($def-fn-argv \type double \name sumf ]
    double result = 0;
    ($arg-begin)
    while ( ($arg-count)-- ) result += ($arg-value double);
    ($arg-end)
    return ( result );
[\def-fn-argv )

int main( void )
{
    ($set call-fn-argv \fn.\argv.]
        ($fn)( ($len argv)($argv \i.[, ($i)]) )
    [\set )

    printf( ""%d %.1f""
    , ($call-fn-argv sumi (1 3 5 7))
    , ($call-fn-argv sumf (2.0 4.0 6.0 8.0))
    );
    return 0;
}
".
Definition argv_c : string := "/*  argv.c was generated by yupp 1.2b5
    out of argv.yu-c at 2021-01-05 18:57
 */

#include <stdarg.h>
#include <stdio.h>

int sumi( int argcnt, ... )
{
    int result = 0;
    va_list argptr;
    va_start( argptr, argcnt );
    while ( argcnt-- ) result += va_arg( argptr, int );
    va_end( argptr );
    return ( result );
}

double sumf( int argcnt, ... )
{
    double result = 0;
    va_list argptr;
    va_start( argptr, argcnt );
    while ( argcnt-- ) result += va_arg( argptr, double );
    va_end( argptr );
    return ( result );
}

int main( void )
{
    printf( ""%d %.1f""
    , sumi( 4, 1, 3, 5, 7 )
    , sumf( 4, 2.0, 4.0, 6.0, 8.0 )
    );
    return 0;
}
".
Definition passage_yu_c : string := "($import stdlib)

($dict file
    (` file_path      )
    (`
    (  ""passage-a.c""  )
    (  ""passage-b.c""  )
    (  ""passage-c.c""  )
    )
)

($set inx ($__PASSAGE__ each-file))
($set __OUTPUT_FILE__ ($inx file_path))

($__TITLE__)

#include <stdio.h>

int main( void )
{
    printf( ($""($0)\n"" ($unq ($inx file_path))) );
    return 0;
}
".
Definition passage_a_c : string := "
/*  passage-a.c was generated by yupp 1.2b1
    out of passage.yu-c at 2020-12-29 13:42
 */

#include <stdio.h>

int main( void )
{
    printf( ""passage-a.c\n"" );
    return 0;
}
".
Definition ulam_yu_c : string := "($__TITLE__)

($import corolib)

#include <stdio.h>

($coro-h)

#define SQ  19  /* odd, square side length */
static int spiral[ SQ * SQ ] = { 0 };

#define	PR_NONE  0
#define	PR_EOL  -1
#define	PR_DOT  -2
static int number = PR_NONE;  /* current state or prime number */

void init_spiral( void )
{
	const int dp[ 4 ] = { -SQ, -1, SQ, 1 };  /* step up, left, down and right */
	int p = SQ * SQ / 2;  /* position in spiral */
	int n = 2;  /* current number */
	int lch = 3;  /* chain length */
	int i, ii;

	spiral[ p ] = 1;
	spiral[ ++p ] = 2;
	while ( n < SQ * SQ ) {
		for ( i = 0; i < 4; i++ ) {  /* up-left-down-right cycle */
			for ( ii = 0; ii < lch >> 1; ii++ ) {  /* chain cycle */
				p += dp[ i ];
				spiral[ p ] = ++n;
			}
			++lch; /* chain grows up every second turn */
		}
	}
}

int isprime( int n )
{
	int i;

	if ( n == 2 ) return 1;
	if ( n == 1 || n % 2 == 0 ) return 0;
	for ( i = 3; i * i <= n; i += 2 ) if (( n % i ) == 0 ) return 0;
	return 1;
}

/* Define coroutines */

($coro-define U ]
	for ( i = 0; i < SQ * SQ; i++ ) {
		number = spiral[ i ];

		if ( !isprime( number )) number = PR_DOT;
		($coro-yield);

		/* check line breaking */
		if (( i % SQ ) == ( SQ - 1 )) number = PR_EOL;
		($coro-yield);
	}
[ \enter ]
	($coro-local) int i;
[ )

($coro-define L ]
	for ( ; ; ) {
		($coro-wait,, number > PR_NONE );
		printf( ""%03d "", number );
		number = PR_NONE;
	}
[ )

($coro-define A ]
	for ( ; ; ) {
		($coro-wait,, number == PR_DOT );
		printf( "" .  "" );
		number = PR_NONE;
	}
[ )

($coro-define M ]
	for ( ; ; ) {
		($coro-wait,, number == PR_EOL );
		printf( ""\n"" );
		number = PR_NONE;
	}
[ )

($dict D
	(` name )
	(`
	(  U    )
	(  L    )
	(  A    )
	(  M    )
	)
)

/* Print ULAM spiral */

int main( void )
{
	($each-D \i.]
		($coro-context ($i name)) = NULL;

	[ )
	init_spiral();
	while ( 1
		($each-D \i.]
			&& ($coro-alive ($coro-call ($i name)))

		[ )
	);
	return 0;
}
".
Definition ulam_c : string := "/*  ulam.c was generated by yupp 1.2b5
    out of ulam.yu-c at 2021-01-05 18:45
 */

#include <stdio.h>

typedef void * co_t;
typedef unsigned int semaphore_t;

enum {
	CO_READY,
	CO_WAIT,
	CO_YIELD,
	CO_END,
	CO_SKIP,
};

#define SQ  19  /* odd, square side length */
static int spiral[ SQ * SQ ] = { 0 };

#define	PR_NONE  0
#define	PR_EOL  -1
#define	PR_DOT  -2
static int number = PR_NONE;  /* current state or prime number */

void init_spiral( void )
{
	const int dp[ 4 ] = { -SQ, -1, SQ, 1 };  /* step up, left, down and right */
	int p = SQ * SQ / 2;  /* position in spiral */
	int n = 2;  /* current number */
	int lch = 3;  /* chain length */
	int i, ii;

	spiral[ p ] = 1;
	spiral[ ++p ] = 2;
	while ( n < SQ * SQ ) {
		for ( i = 0; i < 4; i++ ) {  /* up-left-down-right cycle */
			for ( ii = 0; ii < lch >> 1; ii++ ) {  /* chain cycle */
				p += dp[ i ];
				spiral[ p ] = ++n;
			}
			++lch; /* chain grows up every second turn */
		}
	}
}

int isprime( int n )
{
	int i;

	if ( n == 2 ) return 1;
	if ( n == 1 || n % 2 == 0 ) return 0;
	for ( i = 3; i * i <= n; i += 2 ) if (( n % i ) == 0 ) return 0;
	return 1;
}

/* Define coroutines */

int coro_U( co_t *co_p )
{
	static int i;
	if ( *co_p ) goto **co_p;
	/* begin */
	for ( i = 0; i < SQ * SQ; i++ ) {
		number = spiral[ i ];

		if ( !isprime( number )) number = PR_DOT;
		do {
			/* yield */
			*co_p = &&L__0;

			return CO_YIELD;

			L__0:;
		} while ( 0 );

		/* check line breaking */
		if (( i % SQ ) == ( SQ - 1 )) number = PR_EOL;
		do {
			/* yield */
			*co_p = &&L__1;

			return CO_YIELD;

			L__1:;
		} while ( 0 );
	}
	/* end */
	*co_p = &&L__END_U;

	L__END_U:

	return CO_END;
}

int coro_L( co_t *co_p )
{

	if ( *co_p ) goto **co_p;
	/* begin */
	for ( ; ; ) {
		do {
			/* wait */
			*co_p = &&L__2;

			L__2:
			if (!( number > PR_NONE )) { /* cond */

				return CO_WAIT;
			}
		} while ( 0 );
		printf( ""%03d "", number );
		number = PR_NONE;
	}
	/* end */
	*co_p = &&L__END_L;

	L__END_L:

	return CO_END;
}

int coro_A( co_t *co_p )
{

	if ( *co_p ) goto **co_p;
	/* begin */
	for ( ; ; ) {
		do {
			/* wait */
			*co_p = &&L__3;

			L__3:
			if (!( number == PR_DOT )) { /* cond */

				return CO_WAIT;
			}
		} while ( 0 );
		printf( "" .  "" );
		number = PR_NONE;
	}
	/* end */
	*co_p = &&L__END_A;

	L__END_A:

	return CO_END;
}

int coro_M( co_t *co_p )
{

	if ( *co_p ) goto **co_p;
	/* begin */
	for ( ; ; ) {
		do {
			/* wait */
			*co_p = &&L__4;

			L__4:
			if (!( number == PR_EOL )) { /* cond */

				return CO_WAIT;
			}
		} while ( 0 );
		printf( ""\n"" );
		number = PR_NONE;
	}
	/* end */
	*co_p = &&L__END_M;

	L__END_M:

	return CO_END;
}

/* Print ULAM spiral */

int main( void )
{
	co_t co_U = NULL;
	co_t co_L = NULL;
	co_t co_A = NULL;
	co_t co_M = NULL;

	init_spiral();
	while ( 1
		&& ((  coro_U( &co_U ) ) < CO_END )
		&& ((  coro_L( &co_L ) ) < CO_END )
		&& ((  coro_A( &co_A ) ) < CO_END )
		&& ((  coro_M( &co_M ) ) < CO_END )

	);
	return 0;
}
".
Definition gpio_yu_c : string := "($__TITLE__ 0)/**
 *  \file  ($unq ($__OUTPUT_FILE__)) (($unq ($__FILE__)))
 *  \brief  Generic example of using preprocessor for interaction with GPIO pins.
 */

#include <stdint.h>
#include <stdbool.h>
#include <stdio.h>

($import stdlib)

($! Definition of used inputs )
($dict IN_POOL
	(` IN_NAME  IN_PORT  IN_PIN  IN_PULL  IN_FILT  )
	(`
	(  NACK     'A'      2       DOWN     OFF      )
	(  BUSY     'B'      11      OFF      ON       )
	(  PE       'B'      13      UP       OFF      )
	(  SLCT     'A'      5       OFF      ON       )
	(  NERR     'C'      7       DOWN     OFF      )
	)
)

/**
 *  \defgroup periph Simulation of peripheral registers
 *  \{
 */

($set PIN_PER_PORT 16)

($! Define offsets in register for each pin
	reg: register name
	sz : field size (in bits)
)
($macro _REGOFS (reg sz) ($($range PIN_PER_PORT) \i.]
	#define GPIO_($reg)_PIN($i)  ($mul i ($sz))

[ ))

/**
 *  \defgroup reg_mode GPIO MODE register
 *  \{
 */

#define GPIO_MODE_INPUT   0
#define GPIO_MODE_OUTPUT  1

($_REGOFS MODE 1)

/** \} */

/**
 *  \defgroup reg_pull GPIO PULL register
 *  \{
 */

#define GPIO_PULL_OFF   0
#define GPIO_PULL_UP    1
#define GPIO_PULL_DOWN  2

($_REGOFS PULL 2)

/** \} */

/**
 *  \defgroup reg_filt GPIO FILT register
 *  \{
 */

#define GPIO_FILT_OFF  0
#define GPIO_FILT_ON   1

($_REGOFS FILT 1)

/** \} */

/**
 *  \defgroup reg_state GPIO STATE register
 *  \{
 */

($_REGOFS STATE 1)

/** \} */

/**
 *  \defgroup reg_clock GPIO clock register
 *  \{
 */

#define GPIO_CLOCK_PORTA  0
#define GPIO_CLOCK_PORTB  1
#define GPIO_CLOCK_PORTC  2

uint32_t GPIO_CLOCK;

/** \} */

/**
 *  \defgroup reg_port GPIO port registers
 *  \{
 */

typedef struct {
	uint32_t mode;
	uint32_t pull;
	uint32_t filt;
	uint32_t state;
} GPIO_PORT;

GPIO_PORT PORTA, PORTB, PORTC;

/** \} */

/** \} */

/**
 *  \defgroup inputs Functions for interaction with inputs
 *  \{
 */

/**
 *  \brief Identifiers of inputs.
 */
enum {
	($each-IN_POOL \i.]
		($i IN_NAME),

	[ )
	IN__COUNT_  /**< Count of inputs. */
};

/**
 *  \brief Initialize GPIO ports.
 */
void init_gpio( void )
{
	($set PORTS ($unique IN_PORT))

	/* Enable GPIO clocks */
	GPIO_CLOCK |= 0 ($PORTS \p.[ | ( 1UL << GPIO_CLOCK_PORT($unq p) )]);

	/* Configure GPIO ports */
	($PORTS \p.]
		PORT($unq p).mode = ( 0
			($each-IN_POOL \i.($if ($eq p ($i IN_PORT)) ]
				| ( GPIO_MODE_INPUT << GPIO_MODE_PIN($i) )

			[ ))
		);
		PORT($unq p).pull = ( 0
			($each-IN_POOL \i.($if ($eq p ($i IN_PORT)) ]
				| ( GPIO_PULL_($i IN_PULL) << GPIO_PULL_PIN($i) )

			[ ))
		);
		PORT($unq p).filt = ( 0
			($each-IN_POOL \i.($if ($eq p ($i IN_PORT)) ]
				| ( GPIO_FILT_($i IN_FILT) << GPIO_FILT_PIN($i) )

			[ ))
		);

	[ )
}

($each-IN_POOL \i.]

	/**
	 *  \brief Get state of ($i IN_NAME) input.
	 *  \return State.
	 */
	bool get_($i IN_NAME)( void )
	{
		($set port ($unq ($i IN_PORT)))
		($set pin ($i IN_PIN))
		return (( PORT($port).state & GPIO_STATE_PIN($pin) ) != 0 );  /* port ($port) pin ($pin) */
	}

[ )

bool get_input( int in )
{
	switch ( in ) {
	($each-IN_POOL \i.]
		case ($i IN_NAME):
			return get_($i IN_NAME)();

	[ )
	}
	return false;
}

/** \} */

int main( void )
{
	init_gpio();

	($each-IN_POOL \i.]
		bool ($lower ($i IN_NAME)) = get_input( ($i IN_NAME) );

	[ )

	($each-IN_POOL \i.]
		printf( ($""($0) = %d\n"" ($i IN_NAME)), get_($i IN_NAME)());

	[ )
	return 0;
}
".
Definition gpio_c : string := "/*  gpio.c was generated by yupp 1.2b1
    out of gpio.yu-c
 *//**
 *  \file  gpio.c (gpio.yu-c)
 *  \brief  Generic example of using preprocessor for interaction with GPIO pins.
 */

#include <stdint.h>
#include <stdbool.h>
#include <stdio.h>

/**
 *  \defgroup periph Simulation of peripheral registers
 *  \{
 */

/**
 *  \defgroup reg_mode GPIO MODE register
 *  \{
 */

#define GPIO_MODE_INPUT   0
#define GPIO_MODE_OUTPUT  1

#define GPIO_MODE_PIN0  0
#define GPIO_MODE_PIN1  1
#define GPIO_MODE_PIN2  2
#define GPIO_MODE_PIN3  3
#define GPIO_MODE_PIN4  4
#define GPIO_MODE_PIN5  5
#define GPIO_MODE_PIN6  6
#define GPIO_MODE_PIN7  7
#define GPIO_MODE_PIN8  8
#define GPIO_MODE_PIN9  9
#define GPIO_MODE_PIN10  10
#define GPIO_MODE_PIN11  11
#define GPIO_MODE_PIN12  12
#define GPIO_MODE_PIN13  13
#define GPIO_MODE_PIN14  14
#define GPIO_MODE_PIN15  15

/** \} */

/**
 *  \defgroup reg_pull GPIO PULL register
 *  \{
 */

#define GPIO_PULL_OFF   0
#define GPIO_PULL_UP    1
#define GPIO_PULL_DOWN  2

#define GPIO_PULL_PIN0  0
#define GPIO_PULL_PIN1  2
#define GPIO_PULL_PIN2  4
#define GPIO_PULL_PIN3  6
#define GPIO_PULL_PIN4  8
#define GPIO_PULL_PIN5  10
#define GPIO_PULL_PIN6  12
#define GPIO_PULL_PIN7  14
#define GPIO_PULL_PIN8  16
#define GPIO_PULL_PIN9  18
#define GPIO_PULL_PIN10  20
#define GPIO_PULL_PIN11  22
#define GPIO_PULL_PIN12  24
#define GPIO_PULL_PIN13  26
#define GPIO_PULL_PIN14  28
#define GPIO_PULL_PIN15  30

/** \} */

/**
 *  \defgroup reg_filt GPIO FILT register
 *  \{
 */

#define GPIO_FILT_OFF  0
#define GPIO_FILT_ON   1

#define GPIO_FILT_PIN0  0
#define GPIO_FILT_PIN1  1
#define GPIO_FILT_PIN2  2
#define GPIO_FILT_PIN3  3
#define GPIO_FILT_PIN4  4
#define GPIO_FILT_PIN5  5
#define GPIO_FILT_PIN6  6
#define GPIO_FILT_PIN7  7
#define GPIO_FILT_PIN8  8
#define GPIO_FILT_PIN9  9
#define GPIO_FILT_PIN10  10
#define GPIO_FILT_PIN11  11
#define GPIO_FILT_PIN12  12
#define GPIO_FILT_PIN13  13
#define GPIO_FILT_PIN14  14
#define GPIO_FILT_PIN15  15

/** \} */

/**
 *  \defgroup reg_state GPIO STATE register
 *  \{
 */

#define GPIO_STATE_PIN0  0
#define GPIO_STATE_PIN1  1
#define GPIO_STATE_PIN2  2
#define GPIO_STATE_PIN3  3
#define GPIO_STATE_PIN4  4
#define GPIO_STATE_PIN5  5
#define GPIO_STATE_PIN6  6
#define GPIO_STATE_PIN7  7
#define GPIO_STATE_PIN8  8
#define GPIO_STATE_PIN9  9
#define GPIO_STATE_PIN10  10
#define GPIO_STATE_PIN11  11
#define GPIO_STATE_PIN12  12
#define GPIO_STATE_PIN13  13
#define GPIO_STATE_PIN14  14
#define GPIO_STATE_PIN15  15

/** \} */

/**
 *  \defgroup reg_clock GPIO clock register
 *  \{
 */

#define GPIO_CLOCK_PORTA  0
#define GPIO_CLOCK_PORTB  1
#define GPIO_CLOCK_PORTC  2

uint32_t GPIO_CLOCK;

/** \} */

/**
 *  \defgroup reg_port GPIO port registers
 *  \{
 */

typedef struct {
	uint32_t mode;
	uint32_t pull;
	uint32_t filt;
	uint32_t state;
} GPIO_PORT;

GPIO_PORT PORTA, PORTB, PORTC;

/** \} */

/** \} */

/**
 *  \defgroup inputs Functions for interaction with inputs
 *  \{
 */

/**
 *  \brief Identifiers of inputs.
 */
enum {
	NACK,
	BUSY,
	PE,
	SLCT,
	NERR,

	IN__COUNT_  /**< Count of inputs. */
};

/**
 *  \brief Initialize GPIO ports.
 */
void init_gpio( void )
{
	/* Enable GPIO clocks */
	GPIO_CLOCK |= 0 | ( 1UL << GPIO_CLOCK_PORTA ) | ( 1UL << GPIO_CLOCK_PORTB ) | ( 1UL << GPIO_CLOCK_PORTC );

	/* Configure GPIO ports */
	PORTA.mode = ( 0
		| ( GPIO_MODE_INPUT << GPIO_MODE_PIN0 )
		| ( GPIO_MODE_INPUT << GPIO_MODE_PIN3 )

	);
	PORTA.pull = ( 0
		| ( GPIO_PULL_DOWN << GPIO_PULL_PIN0 )
		| ( GPIO_PULL_OFF << GPIO_PULL_PIN3 )

	);
	PORTA.filt = ( 0
		| ( GPIO_FILT_OFF << GPIO_FILT_PIN0 )
		| ( GPIO_FILT_ON << GPIO_FILT_PIN3 )

	);
	PORTB.mode = ( 0
		| ( GPIO_MODE_INPUT << GPIO_MODE_PIN1 )
		| ( GPIO_MODE_INPUT << GPIO_MODE_PIN2 )

	);
	PORTB.pull = ( 0
		| ( GPIO_PULL_OFF << GPIO_PULL_PIN1 )
		| ( GPIO_PULL_UP << GPIO_PULL_PIN2 )

	);
	PORTB.filt = ( 0
		| ( GPIO_FILT_ON << GPIO_FILT_PIN1 )
		| ( GPIO_FILT_OFF << GPIO_FILT_PIN2 )

	);
	PORTC.mode = ( 0
		| ( GPIO_MODE_INPUT << GPIO_MODE_PIN4 )

	);
	PORTC.pull = ( 0
		| ( GPIO_PULL_DOWN << GPIO_PULL_PIN4 )

	);
	PORTC.filt = ( 0
		| ( GPIO_FILT_OFF << GPIO_FILT_PIN4 )

	);

}

/**
 *  \brief Get state of NACK input.
 *  \return State.
 */
bool get_NACK( void )
{
	return (( PORTA.state & GPIO_STATE_PIN2 ) != 0 );  /* port A pin 2 */
}

/**
 *  \brief Get state of BUSY input.
 *  \return State.
 */
bool get_BUSY( void )
{
	return (( PORTB.state & GPIO_STATE_PIN11 ) != 0 );  /* port B pin 11 */
}

/**
 *  \brief Get state of PE input.
 *  \return State.
 */
bool get_PE( void )
{
	return (( PORTB.state & GPIO_STATE_PIN13 ) != 0 );  /* port B pin 13 */
}

/**
 *  \brief Get state of SLCT input.
 *  \return State.
 */
bool get_SLCT( void )
{
	return (( PORTA.state & GPIO_STATE_PIN5 ) != 0 );  /* port A pin 5 */
}

/**
 *  \brief Get state of NERR input.
 *  \return State.
 */
bool get_NERR( void )
{
	return (( PORTC.state & GPIO_STATE_PIN7 ) != 0 );  /* port C pin 7 */
}

bool get_input( int in )
{
	switch ( in ) {
	case NACK:
		return get_NACK();
	case BUSY:
		return get_BUSY();
	case PE:
		return get_PE();
	case SLCT:
		return get_SLCT();
	case NERR:
		return get_NERR();

	}
	return false;
}

/** \} */

int main( void )
{
	init_gpio();

	bool nack = get_input( NACK );
	bool busy = get_input( BUSY );
	bool pe = get_input( PE );
	bool slct = get_input( SLCT );
	bool nerr = get_input( NERR );

	printf( ""NACK = %d\n"", get_NACK());
	printf( ""BUSY = %d\n"", get_BUSY());
	printf( ""PE = %d\n"", get_PE());
	printf( ""SLCT = %d\n"", get_SLCT());
	printf( ""NERR = %d\n"", get_NERR());

	return 0;
}
".
Definition coro_yu_c : string := "($! coroutines in gcc )

($__TITLE__ 0)

($set coro-define \name.\coro.\enter:[].]
int coro_($name)( void **ip )
{
	($enter)
	if ( *ip ) goto **ip;
	/* begin */
	($coro)
	/* end */
	*ip = &&LC__END_($name);

	LC__END_($name):
	return 0;
}
[\set )

($set __label_iter 0)

($macro coro-yield ()/* yield */
do {
	($set __label (LC__($emit __label_iter inc)))
	*ip = &&($__label);
	return 1;

	($__label):;
} while ( 0 ))

($macro coro-call ( name ) coro_($name)( &lc_($name) ))

#include <stdio.h>

void *lc_A = 0;
void *lc_B = 0;

($coro-define A ]
	for ( i = 0; i < 10; i++ ) {
		printf( ""A%d "", i );
		($coro-yield);
	}
[ \enter ]
	static int i;
[ )

($coro-define B ]
	for ( i = 0; i < 8; i++ ) {
		printf( ""B%d "", i );
		($coro-yield);
	}
[ \enter ]
	static int i;
[ )

int main( void )
{
	int alive_A, alive_B;
	do {
		alive_A = ($coro-call A);
		alive_B = ($coro-call B);
	} while ( alive_A || alive_B );
	printf( ""\n"" );

	return 0;
}
".
Definition coro_c : string := "/*  coro.c was generated by yupp 1.2b2
    out of coro.yu-c
 */

#include <stdio.h>

void *lc_A = 0;
void *lc_B = 0;

int coro_A( void **ip )
{
	static int i;
	if ( *ip ) goto **ip;
	/* begin */
	for ( i = 0; i < 10; i++ ) {
		printf( ""A%d "", i );
		/* yield */
		do {
			*ip = &&LC__0;
			return 1;

			LC__0:;
		} while ( 0 );
	}
	/* end */
	*ip = &&LC__END_A;

	LC__END_A:
	return 0;
}

int coro_B( void **ip )
{
	static int i;
	if ( *ip ) goto **ip;
	/* begin */
	for ( i = 0; i < 8; i++ ) {
		printf( ""B%d "", i );
		/* yield */
		do {
			*ip = &&LC__1;
			return 1;

			LC__1:;
		} while ( 0 );
	}
	/* end */
	*ip = &&LC__END_B;

	LC__END_B:
	return 0;
}

int main( void )
{
	int alive_A, alive_B;
	do {
		alive_A = coro_A( &lc_A );
		alive_B = coro_B( &lc_B );
	} while ( alive_A || alive_B );
	printf( ""\n"" );

	return 0;
}
".
Definition dict_yu_py : string := "# coding: yupp

($__TITLE__ 0)

from __future__ import print_function

($import stdlib)

($dict VAR
    (` NAME        DEFVAL      FORMAT  )
    (`
    (  var_string  ""montreal""  ""%s""    )
    (  var_float   19.96       ""%.2f""  )
    (  var_int     6           ""%d""    )
    )
)

($each-VAR \i.]
    ($i NAME) = ($i DEFVAL)

[ )

if __name__ == '__main__':
    ($each-VAR \i.]
        print( ($q,,($i NAME) = ($unq ($i FORMAT))) % ( ($i NAME) ))

    [ )

    var_int += 2
".
Definition dict_py : string := "
#  dict.py was generated by yupp 1.2b1
#  out of dict.yu-py

from __future__ import print_function

var_string = ""montreal""
var_float = 19.96
var_int = 6

if __name__ == '__main__':
    print( ""var_string = %s"" % ( var_string ))
    print( ""var_float = %.2f"" % ( var_float ))
    print( ""var_int = %d"" % ( var_int ))

    var_int += 2
".
Definition passage_b_c : string := "
/*  passage-b.c was generated by yupp 1.2b1
    out of passage.yu-c at 2020-12-29 13:42
 */

#include <stdio.h>

int main( void )
{
    printf( ""passage-b.c\n"" );
    return 0;
}
".
Definition passage_c_c : string := "
/*  passage-c.c was generated by yupp 1.2b1
    out of passage.yu-c at 2020-12-29 13:42
 */

#include <stdio.h>

int main( void )
{
    printf( ""passage-c.c\n"" );
    return 0;
}
".
Definition glance_yu_cpp : string := "($import stdlib)

($dict INI
	(` TYPE     VAR       DEFAULT                   )
	(`
	(  QDate    date      (`QDate::currentDate())   )
	(  int      step      0                         )
	(  QString  greeting  ""Hello! Improving Pi...""  )
	(  double   Pi        0.0                       )
	)
)

#include <math.h>
#include <QDate>
#include <QSettings>
#include <QDebug>

($each-INI \i.]
	($i TYPE) ini_($i VAR) = ($i DEFAULT);

[ )

void ini_load( const QString &fn )
{
	QSettings ini( fn, QSettings::IniFormat );

	($each-INI \i.]
		($set T ($i TYPE))
		($set F ($capitalize T) ? ($index T,,Q) | ($cdr T))
		ini_($i VAR) = ini.value( ($q ($i VAR)), ini_($i VAR) ).to($F)();

	[ )
}

void ini_save( const QString &fn )
{
	QSettings ini( fn, QSettings::IniFormat );

	($each-INI \i.]
		ini.setValue( ($q ($i VAR)), ini_($i VAR) );

	[ )
}

#define ini_file  ($""($0).ini"" ($lower ($__MODULE_NAME__)))

int main( void )
{
	ini_load( ini_file );

	// Calc Pi using Leibniz formula, add one term of the series
	ini_Pi += pow( -1, ini_step ) * 4.0 / ( ini_step * 2 + 1 );
	++ini_step;

	($each-INI \i.]
		qDebug() << ini_($i VAR);

	[ )
	ini_save( ini_file );

	return ( 0 );
}
".
Definition glance_cpp : string := "
#include <math.h>
#include <QDate>
#include <QSettings>
#include <QDebug>

QDate ini_date = QDate::currentDate();
int ini_step = 0;
QString ini_greeting = ""Hello! Improving Pi..."";
double ini_Pi = 0.0;

void ini_load( const QString &fn )
{
	QSettings ini( fn, QSettings::IniFormat );

	ini_date = ini.value( ""date"", ini_date ).toDate();
	ini_step = ini.value( ""step"", ini_step ).toInt();
	ini_greeting = ini.value( ""greeting"", ini_greeting ).toString();
	ini_Pi = ini.value( ""Pi"", ini_Pi ).toDouble();

}

void ini_save( const QString &fn )
{
	QSettings ini( fn, QSettings::IniFormat );

	ini.setValue( ""date"", ini_date );
	ini.setValue( ""step"", ini_step );
	ini.setValue( ""greeting"", ini_greeting );
	ini.setValue( ""Pi"", ini_Pi );

}

#define ini_file  ""glance.ini""

int main( void )
{
	ini_load( ini_file );

	// Calc Pi using Leibniz formula, add one term of the series
	ini_Pi += pow( -1, ini_step ) * 4.0 / ( ini_step * 2 + 1 );
	++ini_step;

	qDebug() << ini_date;
	qDebug() << ini_step;
	qDebug() << ini_greeting;
	qDebug() << ini_Pi;

	ini_save( ini_file );

	return ( 0 );
}
".
Definition glance_yu_py : string := "#! /usr/bin/env python
# coding: yupp

($__TITLE__ 0)

from __future__ import print_function
from builtins import open

($import stdlib)

($dict INI
    (` TYPE     VAR       DEFAULT                   )
    (`
    (  int      step      0                         )
    (  string   greeting  'Hello! Improving Pi...'  )
    (  float    Pi        0.0                       )
    (  boolean  flag      True                      )
    (  string   date      (`time.strftime( '%c' ))  )
    )
)

import time
from configparser import ConfigParser

FILE = ($'($0).ini' ($lower ($__MODULE_NAME__)))
SEC = 'General'

($each-INI \i.]
    ini_($i VAR) = ($i DEFAULT)

[ )

def ini_load( fn ):
    ($each-INI \i.]
        global ini_($i VAR)

    [ )
    ini = ConfigParser()

    ini.read( fn )
    if ini.has_section( SEC ):
        ($each-INI \i.]
            ($set OPT ($qs ($i VAR)))
            ($set T (`) ? ($eq ($i TYPE),,string) | ($i TYPE))
            if ini.has_option( SEC, ($OPT) ):
                ini_($i VAR) = ini.get($T)( SEC, ($OPT) )

        [ )

def ini_save( fn ):
    ($each-INI \i.]
        global ini_($i VAR)

    [ )

    ini = ConfigParser()

    if not ini.has_section( SEC ):
        ini.add_section( SEC )

    ($each-INI \i.]
        ($set VR,,ini_($i VAR))
        ($set VAL VR ? ($eq ($i TYPE),,string) | [str( ($VR) )])
        ini.set( SEC, ($qs ($i VAR)), ($VAL) )

    [ )
    with open( fn, mode='w', encoding='utf8' ) as f:
        ini.write( f )

if __name__ == '__main__':
    ini_load( FILE )

    # Calc Pi using Leibniz formula, add one term of the series
    ini_Pi += pow( -1, ini_step ) * 4.0 / ( ini_step * 2 + 1 )
    ini_step += 1

    ($each-INI \i.]
        print( ($'($0) =',,ini_($i VAR)), ini_($i VAR) )

    [ )
    ini_save( FILE )
".
Definition glance_py : string := "#! /usr/bin/env python

#  glance.py was generated by yupp 1.2b1
#  out of glance.yu-py

from __future__ import print_function
from builtins import open

import time
from configparser import ConfigParser

FILE = 'glance.ini'
SEC = 'General'

ini_step = 0
ini_greeting = 'Hello! Improving Pi...'
ini_Pi = 0.0
ini_flag = True
ini_date = time.strftime( '%c' )

def ini_load( fn ):
    global ini_step
    global ini_greeting
    global ini_Pi
    global ini_flag
    global ini_date

    ini = ConfigParser()

    ini.read( fn )
    if ini.has_section( SEC ):
        if ini.has_option( SEC, 'step' ):
            ini_step = ini.getint( SEC, 'step' )
        if ini.has_option( SEC, 'greeting' ):
            ini_greeting = ini.get( SEC, 'greeting' )
        if ini.has_option( SEC, 'Pi' ):
            ini_Pi = ini.getfloat( SEC, 'Pi' )
        if ini.has_option( SEC, 'flag' ):
            ini_flag = ini.getboolean( SEC, 'flag' )
        if ini.has_option( SEC, 'date' ):
            ini_date = ini.get( SEC, 'date' )

def ini_save( fn ):
    global ini_step
    global ini_greeting
    global ini_Pi
    global ini_flag
    global ini_date

    ini = ConfigParser()

    if not ini.has_section( SEC ):
        ini.add_section( SEC )

    ini.set( SEC, 'step', str( ini_step ) )
    ini.set( SEC, 'greeting', ini_greeting )
    ini.set( SEC, 'Pi', str( ini_Pi ) )
    ini.set( SEC, 'flag', str( ini_flag ) )
    ini.set( SEC, 'date', ini_date )

    with open( fn, mode='w', encoding='utf8' ) as f:
        ini.write( f )

if __name__ == '__main__':
    ini_load( FILE )

    # Calc Pi using Leibniz formula, add one term of the series
    ini_Pi += pow( -1, ini_step ) * 4.0 / ( ini_step * 2 + 1 )
    ini_step += 1

    print( 'ini_step =', ini_step )
    print( 'ini_greeting =', ini_greeting )
    print( 'ini_Pi =', ini_Pi )
    print( 'ini_flag =', ini_flag )
    print( 'ini_date =', ini_date )

    ini_save( FILE )
".
Definition app_yu : string := "($set PROGRAM ]
project
[ )
($set VERSION ]
0.1
[ )
($set DESCRIPTION ]
The example of an application
[ )
($set AUTHORS ]
Vitaly Kravtsov (in4lio@gmail.com)
[ )
($set LICENSE ]
See the LICENSE file.
[ )
($set URL ]

[ )
($set COMPILER ]
gcc
[ )

($macro TITLE (brief)($__TITLE__ 0)/**
 *  \file  ($unq ($__OUTPUT_FILE__)) (($unq ($__FILE__)))
 *  \brief  ($brief)
 *  \author  ($AUTHORS)
 *  \copyright  ($LICENSE)
 */
)

($set EOL,,
)
".
Definition co_dict_yu : string := "($dict CORO
	(` CORO )
	(`
	(  A    )
	(  B    )
	(  C    )
	)
)
".
Definition config_yu : string := "($!
	($set corolib-use-c-macro 0) to generate direct C source code for coroutines,
	($set corolib-use-c-macro 1) to generate source code based on macro definitions from ""coroutine.h"".
)
($set corolib-use-c-macro 1)
".
Definition main_yu_c : string := "($import ""app.yu"")
($TITLE,,($DESCRIPTION).)

($import ""config.yu"")
($import h)
($import corolib)

#include <stdio.h>
#include ""co.h""

($import ""co-dict.yu"")

/**
 *  \brief Initialize all coroutines.
 */
static void coro_init( void )
{
	($each-CORO \i.]
		($coro-context-init ($i CORO));
		($i CORO)_alive = ($i CORO)_init();

	[ )
}

/**
 *  \brief Uninitialize all coroutines.
 */
static void coro_uninit( void )
{
	($each-CORO \i.]
		($i CORO)_uninit();

	[ )
}

/**
 *  \brief Call coroutines according to dictionary.
 */
static int coro_schedule( void )
{
	($each-CORO \i.]
		if ( ($coro-alive [($i CORO)_alive]) ) ($i CORO)_alive = ($coro-call ($i CORO));

	[ )
	return ( 0
	($each-CORO \i.]
		|| ($coro-alive [($i CORO)_alive])

	[ )
	);
}

int main( void )
{
	coro_init();
	for ( ; ; ) {
		if ( coro_schedule() == 0 ) break;
	}
	coro_uninit();

	return 0;
}
".
Definition main_c : string := "
/*  main.c was generated by yup.py (yupp) 1.0c3
    out of main.yu-c 
 *//**
 *  \file  main.c (main.yu-c)
 *  \brief  The example of an application.
 *  \author  Vitaly Kravtsov (in4lio@gmail.com)
 *  \copyright  See the LICENSE file.
 */

#include <stdio.h>
#include ""co.h""

/**
 *  \brief Initialize all coroutines.
 */
static void coro_init( void )
{
	CORO_CONTEXT_INIT( A );
	A_alive = A_init();
	CORO_CONTEXT_INIT( B );
	B_alive = B_init();
	CORO_CONTEXT_INIT( C );
	C_alive = C_init();

}

/**
 *  \brief Uninitialize all coroutines.
 */
static void coro_uninit( void )
{
	A_uninit();
	B_uninit();
	C_uninit();

}

/**
 *  \brief Call coroutines according to dictionary.
 */
static int coro_schedule( void )
{
	if ( CORO_ALIVE( A_alive ) ) A_alive = CORO_CALL( A );
	if ( CORO_ALIVE( B_alive ) ) B_alive = CORO_CALL( B );
	if ( CORO_ALIVE( C_alive ) ) C_alive = CORO_CALL( C );

	return ( 0
	|| CORO_ALIVE( A_alive )
	|| CORO_ALIVE( B_alive )
	|| CORO_ALIVE( C_alive )

	);
}

int main( void )
{
	coro_init();
	for ( ; ; ) {
		if ( coro_schedule() == 0 ) break;
	}
	coro_uninit();

	return 0;
}
".
Definition co_yu_c : string := "($import ""app.yu"")
($TITLE,,Coroutines implementation.)

($import ""config.yu"")
($import h)
($import corolib)

($implement-named)

#include <stdio.h>
#include ""co.h""

static semaphore_t eol;

#define SQ  19  /* odd, square side length */
static int spiral[ SQ * SQ ] = { 0 };

void init_spiral( void )
{
	const int dp[ 4 ] = { -SQ, -1, SQ, 1 };  /* step up, left, down and right */
	int p = SQ * SQ / 2;  /* position in spiral */
	int n = 2;  /* current number */
	int lch = 3;  /* chain length */
	int i, ii;

	spiral[ p ] = 1;
	spiral[ ++p ] = 2;
	while ( n < SQ * SQ ) {
		for ( i = 0; i < 4; i++ ) {  /* up-left-down-right cycle */
			for ( ii = 0; ii < lch >> 1; ii++ ) {  /* chain cycle */
				p += dp[ i ];
				spiral[ p ] = ++n;
			}
			++lch; /* chain grows up every second turn */
		}
	}
}

int isprime( int n )
{
	int i;

	if ( n == 2 ) return 1;
	if ( n == 1 || n % 2 == 0 ) return 0;
	for ( i = 3; i * i <= n; i += 2 ) if (( n % i ) == 0 ) return 0;
	return 1;
}

int A_init( void )
{
	init_spiral();
	return ( CO_READY );
}

void A_uninit( void )
{

}

($coro-define A ]
	for ( i = 0; i < SQ * SQ; i++ ) {
		/* ulam spiral */
		if ( isprime( spiral[ i ])) {
			printf( ""%03d"", spiral[ i ]);
		} else {
			printf( "" . "" );
		}
		($coro-yield);
	}
[ \enter ]
	($coro-local) int i;
[ )

int B_init( void )
{
	return ( CO_READY );
}

void B_uninit( void )
{

}

($coro-define B ]
	while ( ($coro-alive A_alive) ) {
		($semaphore-acquire eol);
		for ( i = 0; i < SQ - 1; i++ ) {
			/* spacing */
			printf( "" "" );
			($coro-yield);
		}
		($semaphore-release eol);
		($coro-yield);
	}
[ \enter ]
	($coro-local) int i;
[ )

int C_init( void )
{
	($semaphore-init eol 1);
	return ( CO_READY );
}

void C_uninit( void )
{

}

($coro-define C ]
	while ( ($coro-alive A_alive) ) {
		($semaphore-acquire eol);
		/* line breaking */
		printf( ""\n"" );
		($semaphore-release eol);
		($coro-yield);
	}
[ )
".
Definition co_c : string := "
/*  co.c was generated by yup.py (yupp) 1.0b2
    out of co.yu-c 
 *//**
 *  \file  co.c (co.yu-c)
 *  \brief  Coroutines implementation.
 *  \author  Vitaly Kravtsov (in4lio@gmail.com)
 *  \copyright  See the LICENSE file.
 */

#define CO_IMPLEMENT

#include <stdio.h>
#include ""co.h""

static semaphore_t eol;

#define SQ  19  /* odd, square side length */
static int spiral[ SQ * SQ ] = { 0 };

void init_spiral( void )
{
	const int dp[ 4 ] = { -SQ, -1, SQ, 1 };  /* step up, left, down and right */
	int p = SQ * SQ / 2;  /* position in spiral */
	int n = 2;  /* current number */
	int lch = 3;  /* chain length */
	int i, ii;

	spiral[ p ] = 1;
	spiral[ ++p ] = 2;
	while ( n < SQ * SQ ) {
		for ( i = 0; i < 4; i++ ) {  /* up-left-down-right cycle */
			for ( ii = 0; ii < lch >> 1; ii++ ) {  /* chain cycle */
				p += dp[ i ];
				spiral[ p ] = ++n;
			}
			++lch; /* chain grows up every second turn */
		}
	}
}

int isprime( int n )
{
	int i;

	if ( n == 2 ) return 1;
	if ( n == 1 || n % 2 == 0 ) return 0;
	for ( i = 3; i * i <= n; i += 2 ) if (( n % i ) == 0 ) return 0;
	return 1;
}

int A_init( void )
{
	init_spiral();
	return ( CO_READY );
}

void A_uninit( void )
{

}

CORO_DEFINE( A )
{
	CORO_LOCAL int i;

	CORO_BEGIN();
	/* begin */
	for ( i = 0; i < SQ * SQ; i++ ) {
		/* ulam spiral */
		if ( isprime( spiral[ i ])) {
			printf( ""%03d"", spiral[ i ]);
		} else {
			printf( "" . "" );
		}
		CORO_YIELD();
	}
	/* end */
	CORO_END();
}

int B_init( void )
{
	return ( CO_READY );
}

void B_uninit( void )
{

}

CORO_DEFINE( B )
{
	CORO_LOCAL int i;

	CORO_BEGIN();
	/* begin */
	while ( CORO_ALIVE( A_alive ) ) {
		SEMAPHORE_ACQUIRE( eol,);
		for ( i = 0; i < SQ - 1; i++ ) {
			/* spacing */
			printf( "" "" );
			CORO_YIELD();
		}
		SEMAPHORE_RELEASE( eol );
		CORO_YIELD();
	}
	/* end */
	CORO_END();
}

int C_init( void )
{
	SEMAPHORE_INIT( eol, 1 );
	return ( CO_READY );
}

void C_uninit( void )
{

}

CORO_DEFINE( C )
{
	
	CORO_BEGIN();
	/* begin */
	while ( CORO_ALIVE( A_alive ) ) {
		SEMAPHORE_ACQUIRE( eol,);
		/* line breaking */
		printf( ""\n"" );
		SEMAPHORE_RELEASE( eol );
		CORO_YIELD();
	}
	/* end */
	CORO_END();
}
".
