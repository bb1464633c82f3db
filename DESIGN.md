# Formal model of composipy in Rocq (Coq 8.16.1)

Design, trusted base, and what is and is not modelled. Property statements are in `properties.jsonl`, the theorem names of
each property in `MANIFEST.json`.

## 1. Layout

| files (`rocq/theories`) | content |
|---|---|
| `M_*.v` | the model: Gallina definitions, function by function, each citing the file and lines of /repo it models |
| `S_*.v` | specifications written independently of the model's helpers (integrals, tensor rotation, grammars, solver contract, example data) |
| `L_*.v` | helper lemmas |
| `T_*.v` | the proofs |
| `P_*.v` | property theorems only, each closed by `exact` of a lemma of `T_*.v` and followed by `Print Assumptions` |

A reader who wants to know what has been proved needs `P_*.v`, `M_*.v` and `S_*.v`; `L_*.v` and `T_*.v` contain nothing
a statement depends on. Theorems named `Cxx_ex…` instantiate the hypotheses of the theorems of property Cxx with a
concrete, non-trivial case. Theorems named `…_refuted` show with a witness that the natural claim (often the documented one)
does not hold of the code.

## 2. Trusted base

1. The Coq 8.16.1 kernel, its VM (`vm_compute` is used for the stored tables and for text examples) and `coqc`.
2. Axioms of the standard library, listed per theorem in section 6. No axiom is added, nothing is admitted, no kernel check is
   switched off; no `Declare Module`, functor or module type is used. The only axioms are those of the classical real
   numbers (`sig_forall_dec`, `sig_not_dec`), functional extensionality and, through Coquelicot and Flocq, `classic`.
3. Libraries: standard library, Flocq 4.1.0 (binary64 arithmetic), Coquelicot (derivatives and integrals in specifications).
4. `tools/gen_tables.py`, which copies the literal dictionaries of `_ii_F.py` and `_S.py` into `M_Tables.v` and `M_Shape.v`
   (it reads the repository as text; the two files were written by it). For the 2500 texts of `S` it checks that each is the
   product of two texts of `FXI` and stores only the order of the factors.
5. The faithfulness of the model to the code, i.e. the reading of /repo recorded in section 4. Every definition of `M_*.v`
   carries the lines it models; they can be compared side by side.
6. Statements about Python, numpy, pandas and scipy which the model takes from their documentation or source:
   * exceptions: class of exception and the point of the evaluation order where it is raised (message texts are not modelled);
   * `list.sort` on three elements, `list ==` and tuple `==` (identity shortcut), `str` methods on ASCII, `float`/`int` of
     numbers, `int(str)`, numpy `linspace`, `meshgrid`, `reshape`, slicing; pandas `mask`, `idxmin(axis=1)` with NaN;
   * `np.linalg.inv`: LinAlgError exactly for singular matrices, otherwise the inverse (exact arithmetic);
   * `eigsh(…, which='SM', sigma=1, mode='cayley')`: an *argument* of the model. Theorems assume `S_Eigen.documented`: for k<=0
     ValueError; for a symmetric pencil with positive definite M, an answer consists of k M-orthogonal eigenpairs with the
     smallest |w'| for the documented w' = (w+1)/(w-1), in ascending order. Nothing is assumed about when an answer is given;
   * `eigsh` in binary64: an argument of `M_BucklingFloat`. C97 assumes `S_BucklingFloat.accurate_to`: the values are the documented ones for
     some pencil near the given one (eps and gam, parameters of the theorems); the returned vectors are not constrained. C97_solver shows such
     solvers exist;
   * `float ** int` and decimal literals in binary64: *arguments* of the model. C77 and C78 assume `S_Round.pow_close` and
     `S_Round.dec_close` (accuracy within the usual range), C82 `S_Extreme.pow_range` (what happens out of range); both are met by
     repeated multiplication and reading to nearest, which is proved; C93 assumes `S_OptFloat.square_close` or `square_nearest`, met by one
     multiplication, which is proved;
   * the text of a float: an *argument* `fmt` of `M_Repr`. C90 assumes `S_Repr.prints`: different floats have different texts, not empty,
     without space or comma, never the text of an int. C90_prints shows the conditions can be met.
   * `np.cos`, `np.sin`, `np.linalg.inv` and `@` in binary64: *arguments* of the model (record `numpy` of `M_LayupFloat`). C88
     assumes `S_LayupFloat.numpy_near`: cos and sin within two units, `@` within four units of the sum of magnitudes (met by a
     plain loop, which is proved), an inverse whose residual has k units, with k a parameter of the theorems;
     C95 assumes cos and sin within two units at twice and four times the angle (`S_XiFloat.xi_near`);
   * `@` with a vector and `np.linalg.inv` of a 6x6 array in binary64: arguments of the model (record `numpy_v` of `M_StrengthFloat`). C96 assumes
     `mv_near` (n + 1 units of the sum of magnitudes) and `inv6_near` (the residual of the one inverse in question, an arbitrary bound); `C96_loop` shows
     the first for the plain loop, `C96_ex` meets both;
   * `scipy.optimize.minimize`: not modelled, the theorems speak of the problem handed to it.

## 3. Numbers and text

* *Algebra* (stiffness matrices, strains, energies, lamination parameters, optimisation problems) is modelled in exact real
  arithmetic; rounding errors of these computations are outside the model, except where named below.
* *Decisions on floats* (validators, margins of safety, critical mode, equality of materials and laminates, signs of layup
  angles) are modelled in IEEE-754 binary64 with Flocq's `BinarySingleNaN` (NaN payloads and signs are not distinguished).
* *Stored tables* are the literal texts, parsed by a Coq model of the arithmetic part of Python's `eval` and evaluated
  exactly; how far they are from the true integrals is a theorem (C45), and C38/C39 carry the resulting bounds.
* The assembly of K and KG (`M_K.v`) is written over an abstract arithmetic with an exact-real and a binary64 instance:
  symmetry and the shape of errors (C39_symmetric, C39_arithmetics) hold in binary64 as well, C77 bounds the rounding errors and C82 covers lengths of any size.
* The interfaces and the sums for A, B and D are also written over that arithmetic (`M_LamArith.v`), with the same text in reals
  and in binary64 (C78); `Q_0` and the invariants are modelled in both (C87); `T_layup` and `Q_layup` are modelled in
  binary64 with cos, sin, `**`, inv and `@` as arguments whose accuracy is assumed (C88); from lamination parameters
  only `**` (C94); the lamination parameters of a layup with cos, sin and `**` (C95).
* Text is ASCII.

## 4. Code covered

| code | model | simplifications |
|---|---|---|
| utils/validators.py:4-35 | `M_Validate` | `float(object)` for objects other than numbers and text is a parameter of the object; `float(str)` is an arbitrary function |
| core/material.py constructors | `M_Validate` (binary64), `M_Material` (reals) | v21 is computed from exact numbers in `M_Material` |
| core/material.py names, `__eq__`, `__repr__` | `M_MatObj`, `M_Repr` | a given name is a str or None |
| core/material.py Q_0, Invariants | `M_Material` (reals), `M_MatFloat` (binary64) | the cache of Q_0 stores the value of a pure expression and is not represented |
| core/property.py | `M_Laminate`, `M_LamHistory`, `M_LamArith`, `M_LayupFloat` and `M_LpFloat` (binary64, from the plies and from lamination parameters), `M_XiFloat` (xiA and xiD in binary64), `M_MatObj` (`__eq__`), `M_Alias` (references to the lists of the caller) | `__repr__` in `M_Repr`, for stackings that are lists of ints and floats; caches, aliasing of the cached arrays and re-assignment of `layup` are |
| core/strength.py | `M_Strength`, `M_Linalg`, `M_Margin`, `M_StrengthFloat` | DataFrame = list of rows; the margin formulas are on binary64, the stresses on reals in `M_Strength` and on binary64 in `M_StrengthFloat` (angle layups, each call on its own arrays); arrays live on a heap so that in-place division is visible |
| core/structure.py constructor, constraints | `M_Validate`, `M_Plate` | non-str elements of edge lists are never equal to a component name |
| core/structure.py object state (constraint dictionary, stored index lists, stored eigenvectors) | `M_PlateHistory` | operations of several plates sharing laminates and dictionaries; in-place writes into returned arrays are only modelled for single laminates (`M_LamHistory`) |
| core/structure.py calc_K_KG_D, calc_K_KG_ABD | `M_K` | sparse storage not represented; the same definitions run over reals and over binary64 (C77, C100) |
| core/structure.py buckling_analysis, plot_eigenvalue | `M_Buckling`, `M_Plot`, `M_BucklingFloat`, `M_NcrFloat`, `M_PlotFloat` (doubles) | drawing and csr_matrix not modelled, the plotted values are; eigsh is an argument |
| pre_integrated_component: functions.py, build_k.py, _ii_F.py, _S.py | `M_K`, `M_Expr`, `M_Tables`, `M_Shape` | see section 3 |
| pre_integrated_component/write_shape_function.py, write_pre_integrated_terms.py, theoretical/write_bardell_terms.py: the shape functions F | `M_Gen` | a sympy expression is represented by its value at a real number; `factorial` of a negative integer is zoo, a number divided by zoo is 0; lambdify is not modelled |
| the same two scripts as a whole (polynomials, derivatives, integrals, convert_to_str, the files written), and importing the files | `M_GenFile` | for numbers from 4 on a sympy polynomial is its list of Rational coefficients and prints highest power first; the texts of entries made from the first four functions (Float coefficients) and of the products in _S.py are parameters; the files are written as one text; the import accepts exactly comments, blank lines, `__all__` and dictionaries with one entry per line |
| nastranapi/pcomp_generator.py | `M_Nastran` | `float(str)` is an arbitrary function; `str()` of a value is given as text; `int(pid)` has succeeded |
| optimize/utils.py, _maximize_buckling.py, _minimize_panel_weight.py | `M_Optimize`, `M_OptFloat` (utils.py:27-104 on doubles), `M_NcrFloat` (utils.py:11-24, objective and buckling constraint on doubles), `M_PlotOptFloat` (utils.py:108-152 on doubles) | reals; minimize not run; warnings as a list; drawing not modelled; on doubles the loads and points are Python floats (numpy scalars divide by zero without raising) |

Not modelled: the rest of `theoretical/*` (generators and notebooks run offline with
sympy; the stored tables themselves are verified in C43, C45, C46, C63, C75, C83), `doc/`, `setup.py`, tests, message texts of
exceptions and warnings, printing and plotting, run time and memory, threads.

## 5. Properties: model and method

| id | property | modelled as | how proved |
|---|---|---|---|
| C01 | Orthotropic material validation is exact | validators on Python objects, binary64 | case analysis on the order of the checks; acceptance as an equivalence |
| C02 | Isotropic material: documented optional allowables | same | case analysis |
| C03 | Q_0 is the inverse of the plane-stress compliance | Q_0 on reals | field; equivalence for readability |
| C04 | Exactly which accepted materials have a positive definite stiffness | Q_0 on reals | Sylvester-type criterion proved by completing squares; witness for acceptance of an indefinite material |
| C05 | Isotropic plies have no direction | Q_0, rotation | ring modulo c^2+s^2=1; both directions |
| C06 | Automatic material names are unique and stable | state machine of constructions and reads of name | invariant by induction over histories; decimal representation injective |
| C07 | Material equality | `__eq__` on binary64 | case analysis, properties of binary64 comparison (NaN, -0.0) |
| C08 | Angle laminates pair each angle with its ply | constructor | induction on lists |
| C09 | Lamination-parameter laminates: which dictionaries are accepted | constructor on dictionaries | case analysis over present keys, all dictionaries |
| C10 | Ply interfaces | z_position fold | induction |
| C11 | Rotated ply stiffness is well defined and correct | T_real, T_engineering, inverse by cofactors | compared with rotation of tensors written independently; ring/field |
| C12 | Symmetries of the rotated stiffness | same | trigonometry, invariants |
| C13 | A, B, D and ABD are symmetric | accumulation loops with caches | induction over plies |
| C14 | Symmetric layups have no coupling | same | induction, pairing of opposite plies |
| C15 | A ignores the stacking order | same | Permutation; witness for B and D |
| C16 | Flipping a laminate | same | induction on the reversed list |
| C17 | Balanced laminates | same | Permutation with opposite angles |
| C18 | Lamination parameters reproduce the laminate | A, D from lamination parameters | multiple-angle formulas, linearity |
| C19 | ABD is positive definite | ABD quadratic form | sum over plies of integrals of positive forms; converse for degenerate cases |
| C20 | Lamination parameters are feasible | xiA, xiD | weighted averages, Cauchy-Schwarz |
| C21 | Reading attributes has no history | object with caches | invariant over histories of reads; witnesses for re-assigned layup and aliased arrays |
| C22 | Laminate equality | list/tuple/material equality with identities | induction following CPython list comparison |
| C23 | Splitting a ply changes nothing | ply sums | induction |
| C24 | Rotating the laminate rotates the matrices | ply sums, rotation group | ring modulo c^2+s^2=1, induction |
| C25 | Mid-plane strains solve the laminate equations | Gaussian elimination model of inv | soundness and completeness of elimination |
| C26 | Ply stresses are in equilibrium with the loads | strength tables | sum of per-ply integrals equals ABD times strain |
| C27 | Plate-direction strains are linear and continuous through the thickness | strength tables | induction over rows |
| C28 | Material-direction results are consistent | strength tables | tensor rotation specification |
| C29 | Shape of the result tables | strength tables | induction: exact list of rows |
| C30 | Computing material strains does not corrupt plate strains | heap of arrays | frame reasoning over histories of calls |
| C31 | Sign of the maximum-stress margin is exact in floating point | margins on binary64 | Flocq rounding lemmas: monotone division, sign of x/y-1 exact |
| C32 | Margin rows carry the position of the other face | row order of both tables | induction |
| C33 | The critical mode is the smallest margin | idxmin model on binary64 | induction on the columns |
| C34 | Shape-function index sets | edge conditions to index sets | computation on symbolic m, n with list lemmas |
| C35 | Component constraints on the y edges: only TX and RX have an effect | same | case analysis over edges |
| C36 | Mixed dictionaries silently free the named edges | same | case analysis |
| C37 | Largest usable m and n | index sets and table keys | arithmetic on sizes |
| C38 | K and KG entries are the energy integrals | assembly over reals, spec = iterated Riemann integrals of derivatives of Bardell functions | product rule of integrals on polynomials; error bounds propagated from C45 |
| C39 | K and KG are symmetric, K is positive semidefinite | assembly | quadratic form = energy; definiteness by independence of shape functions; symmetry in any arithmetic with commutative addition |
| C40 | The coupled stiffness matrix (calc_K_KG_ABD) | coupled assembly | block-by-block comparison with the coupled energy; witnesses |
| C41 | Scaling laws of K and KG | assembly | linearity, change of lengths |
| C42 | Buckling factors | buckling_analysis with a documented solver | pencil algebra, Rayleigh quotient, spectral argument; witness plate for loss of the critical factor |
| C43 | Shape functions satisfy the edge conditions | stored shape functions | exact rational evaluation lifted to R, derivatives by polynomial identity |
| C44 | plot_eigenvalue grid sizes | grid loop | bounds-checked access |
| C45 | The pre-integrated tables are the integrals | stored tables | parser correctness on the texts, exact rational integrals computed in Z, lifted to RInt |
| C46 | S is the product basis | stored products | evaluation of the texts for all xi, eta |
| C47 | Load normalisation | sort, division | lra over all orders |
| C48 | Constraint functions describe the triangle and the parabola | constraint functions | real algebra: equivalence with triangle and parabola |
| C49 | Feasible lamination parameters give a positive definite D | D from lamination parameters | equivalence over the region; witness for the 1e-4 tolerance |
| C50 | Thickness scaling of the buckling load | Ncr_from_lp with documented solver | scaling of D, K and of factors; witness plate valid for every documented solver |
| C51 | Optimiser objective, solver failures and meaning of feasibility | problems handed to minimize | value of the constraint bound; witness |
| C52 | Layup strings round-trip | build_sequence character by character | induction over a grammar of layups |
| C53 | A trailing s always gives a palindrome | same | for all strings |
| C54 | A trailing capital S never works | same | for all strings |
| C55 | Plus-minus units | same | induction on the count |
| C56 | Nested groups are mis-parsed silently | same | general form of nested groups; witnesses |
| C57 | PCOMP cards contain every ply in order | build_pcomp | induction; parsing the card back |
| C58 | PCOMP argument expansion | argument expansion | case analysis, induction |
| C59 | Number of eigenvalues requested | buckling_analysis | arithmetic on sizes for every documented solver |
| C60 | Integer and plate-argument validation | validators | case analysis |
| C61 | Margin tables exist for orthotropic laminates only | margin tables | exception propagation |
| C62 | Superposition of load cases | strength tables | linearity |
| C63 | The stored one-variable functions are the Bardell functions | stored FXI texts | evaluation against the literature formula |
| C64 | Contour plot of the optimisation | plot_optimization arrays | mapM over the grid, exception order |
| C65 | Refinement never raises the critical factor | calc_K_KG_D, index sets, buckling_analysis | embedding of the smaller function space, minimum principle |
| C66 | The critical factor is monotone in stiffness and loads | calc_K_KG_D | comparison of energies, minimum principle |
| C67 | Combined loads | calc_K_KG_D | energies of the combined loads, minimum principle |
| C68 | Tension does not buckle, compression does | calc_K_KG_D, buckling_analysis | sign of the load work; no shape function is constant along a direction |
| C69 | Plies added to the faces | D of laminates, calc_K_KG_D | integral over the thickness, shift of the reference plane; witness |
| C70 | Histories of plates sharing laminates and constraint objects | plates, laminates and constraint dictionaries as objects with identity | invariant over histories (induction), witnesses |
| C71 | The generator of the shape functions | _orth_polynomials of the generators, for every index | Rodrigues form, integration by parts (induction) |
| C72 | The space of deflections and the Ritz principle | index sets, plot_eigenvalue, calc_K_KG_D | basis of polynomials (induction on the degree), separation of variables, minimum principle |
| C73 | The optimisation problems are convex where they report the critical factor | Ncr_from_lp, maximize_buckling_load, minimize_panel_weight | superadditivity of the critical factor (minimum principle), D is affine in the parameters, convexity of 1/T^3 |
| C74 | What a documented eigenvalue solver can answer | buckling_analysis, Ncr_from_lp, eigsh as an argument | spectral theorem for pencils by deflation (induction), counting argument; witness |
| C75 | Clamped plates are computed with exact integrals | the six tables of _ii_F.py, calc_K_KG_D, calc_K_KG_ABD and every caller of them | evaluation of the 5400 texts against exact rational integrals (vm_compute), congruence of the assembly in the tables; witness for the rounded ones |
| C76 | How far the rounded tables move the buckling factor | calc_K_KG_D with the stored and with exact tables, buckling_analysis | entry-wise error bounds, Cauchy inequality, minimum principle for both pencils; worked plate |
| C77 | Rounding errors of the matrices assembled in double precision | calc_K_KG_D over binary64 (Flocq) with the stored texts read by an accurate literal reader | relative errors counted in units through every product and quotient, absolute errors weighted by the coefficients through the sums, no underflow or overflow in the stated ranges; one computed check of the forms of all 5400 texts; then the perturbation argument of C76 |
| C78 | Ply heights and laminate matrices in double precision | z_position and the loops of A, B, D over an abstract arithmetic (`M_LamArith`), run in binary64 and in reals; Q_layup is an argument in binary64 | induction over the plies carrying the error of the interface, of the difference of neighbours and of the running sum; differences of powers factored so that the bound is linear in the number of plies |
| C79 | Classical bounds of the buckling load | calc_K_KG_D with exact integrals, buckling_analysis; stored tables for clamped plates | sharp Wirtinger inequalities by Picone identities (values, half interval, mean zero, second mode with a weight singular at the ends), integration by parts over the plate, energy of two explicit polynomials through C72_ritz, Machin formula for pi |
| C80 | Mirror images, turned plates and exchanged axes | calc_K_KG_D with exact integrals, buckling_analysis with the stored ones for clamped plates, A, B, D of a layup | reflection and exchange of polynomial deflections through C72_ritz and the index sets of both plates; energies compared by substitution in the integrals; the refutation evaluates two one-function plates |
| C81 | Failure envelope and reserve to failure | calculate_maxstressmargin, calculate_stress, epsilon0 in exact reals; the three margin formulas in binary64 | linearity of the solution of ABD x = N and of the stresses; interval arithmetic on the five checks; change of axes through A, B, D and uniqueness of the solution; standard rounding model for quotient and difference |
| C82 | Plate lengths the assembly can work with | calc_K_KG_D, calc_K_KG_ABD and the nine entry functions in binary64 (FA), float ** int by a contract on its range (S_Extreme.pow_range), the stored tables, plate_init | the first pair of indices decides: evaluation order of the quotients in calc_k33_ijkl, underflow and overflow of products from the rounding theorems of Flocq; infinities and NaN by cases on the operands; repeated multiplication is proved to meet the contract |
| C83 | Regenerating the stored files | both generators from the polynomials to the text of the files (convert_to_str included), importing such a file, eval of its texts | polynomial arithmetic by induction on coefficients; printing and lexing of decimals by induction on digits; recursive descent on printed sums by induction on the terms; reading lines by induction on the dictionary; shipped texts: a check that each is the canonical text of its value, with C75_exact |
| C84 | Convergence to the buckling load of the continuous plate | calc_K_KG_D with exact integrals for any numbers of functions; the continuous plate in S_Limit | Weierstrass approximation through Bernstein polynomials, lifted to two derivatives per variable by integrating an approximation of its highest derivative; edge conditions restored by subtracting Hermite cubics times the end values; continuity of the energies under uniform convergence of two derivatives; coercivity of the bending energy against the work of the loads for existence of the limit; product of sines as the attained bound of C79 |
| C85 | A laminate after the lists it was built from have changed | LaminateProperty objects as addresses of caller-owned lists on a heap, all attributes, the strength tables and margins | invariant over histories: what is copied at construction never changes, caches agree with the copies, every other attribute is a function of the present contents; the tables of a laminate whose angles differ from its layup computed in general (mixed laminates); refutations by one ply with changed angle |
| C86 | Stiffness of the plies and the buckling load | Q_0 of both materials, A, B, D, ABD of a laminate (M_Laminate), the assembled matrices with exact integrals (critical, as in C66) and the limit of C84 | duality of strain and stress energy (Young inequality for Q_0 and its inverse), ply-wise comparison of the laminate energy by induction over the stack, the Rayleigh argument of C66 with scaled stiffness in both directions, passage to the limit by C84; the counterexample is a 1x1 problem evaluated exactly |
| C87 | Stiffness of a ply in double precision | Q_0 of both classes and Invariants operation by operation in binary64 (`M_MatFloat`), on the numbers stored by the constructors of `M_Validate` | Sterbenz-free analysis of 1 - x (the difference is zero only for x = 1), relative errors through the quotient with the conditioning 1/(1-v12 v21), absolute errors through the sums of the invariants; the witnesses are doubles found by search, decided by kernel computation, compared with exact rationals |
| C88 | From the plies to the buckling load in double precision | T_layup, Q_layup, A, B, D operation by operation in binary64 (`M_LayupFloat`), on the materials of `M_MatFloat` and the sums of `M_LamArith`; cos, sin, **, inv and @ are arguments | forward error analysis: pi by a Machin formula, Lipschitz bounds for cos and sin, the residual of the inverse turned into an error by the exact inverse, errors of the two products with the magnitudes of Q_0; C78 for the sums, C86 for the effect on the load, C77 for the assembly |
| C89 | What leaving out the coupling of bending and stretching does to the buckling load | A, B, D of a laminate (M_Laminate), the matrices assembled from D (critical, as in C66) and the limit of C84, against the coupled plate of `S_Coupled` | completing the square in the strains pointwise, integrals of continuous functions, the least upper bound of the stable loads; the displacement k grad w makes the square vanish when B = k A and respects clamped edges; Steiner sums for two layers |
| C90 | The text of a material or laminate: what it determines | the f-strings of __repr__ character by character (`M_Repr`), repr as a step of the histories of `M_MatObj`; the text of a float is an argument | parsing argument: the labels hold a comma and a space that no number text holds, so the fields are split off from the right and the name is what is left; simulation of repr by a read of the name; injectivity of the decimal text of ints |
| C91 | All reported buckling factors, not only the first | the matrices assembled with exact integrals, the whole list returned by buckling_analysis (`M_Buckling`); `S_Higher` says which factors are the lowest and what an unstable space is | Courant-Fischer: orthogonal eigenvectors extended to a complete set, a space of more dimensions than eigenvectors meets their complement (a homogeneous system with more unknowns than equations); spaces carried over between plates by the embedding of coefficients; the selection rule of the solver (|cayley| smallest) is monotone on factors from 1 on |
| C92 | Convergence of all the buckling factors | the matrices assembled with exact integrals and the list returned by buckling_analysis as in C91, against the spaces of smooth deflections of `S_HigherLimit` | the energy of a combination is a quadratic form of the coefficients; a negative definite form stays so when all fields of the basis are replaced by polynomials close in second derivatives that respect the edges (L_Approx), and these are coefficient vectors by C72; min-max of C91 both ways; least upper bound for existence |
| C93 | Optimisation helpers in double precision | `M_OptFloat`: utils.py:27-104 on doubles, the power operator an argument; `S_OptFloat`: largest absolute value, nearest double, accuracy of squares | the last of three sorted values by cases; quotients by correct rounding (Flocq); the edge of the region by the tie at -1-2^-53, which rounds to -1, monotonicity, and the fact that adding 1 keeps the sign; doubling is exact |
| C94 | Laminates given by lamination parameters in double precision | `M_LpFloat`: property.py:180-197 and 235-253 on doubles with lamination parameters, the power operator an argument; `S_LpFloat`: the exact A and D of the numbers the doubles stand for, and the error bound | absolute errors in units of q carried through the invariants (C87), products with parameters, sums and the final scaling; the buckling load by C86 and C77 |
| C95 | Lamination parameters of a layup in double precision | `M_XiFloat`: property.py:273-304 on doubles, cos, sin and ** arguments; `S_XiFloat`: the accuracy asked of them and the bounds | errors of positions and weights (C78), of twice and four times the angle, of the weighted sum and of the quotient; range by C20; round trip by C88, C94 and the identity of C18; the parameters above 1 by evaluation |
| C96 | Strains, stresses and margins in double precision | `M_StrengthFloat`: strength.py:53-425 on doubles (angle layups), `@` and `inv` arguments; `S_StrengthFloat`: accuracy of `@` and `inv`, size of strains, distance of tables | backward analysis: the computed tables belong exactly to the computed strains up to rounding of each ply; loads from the residual of the inverse and the error of ABD (C88); strains from positive definiteness; verdicts by the exact sign of computed margins (C31) |
| C97 | Buckling factors reported in double precision by an eigen-solver of limited accuracy | `M_BucklingFloat`: buckling_analysis on doubles (structure.py:385-408) with `eigsh` an argument; `S_BucklingFloat`: nearness of two pencils as quadratic forms, a solver of limited accuracy, the residual of a pair | spaces of non-positive energy (C91) carried from one pencil to a near one and back; the three errors (tables and assembly from C77, solver, division) composed; existence by rebuilding a matrix from rounded eigenvalues; residual bounds by the spectral theorem |
| C98 | The buckling load in double precision from the plies or from lamination parameters | `M_NcrFloat`: Ncr_from_lp (utils.py:11-24), the analysis of a layup (structure.py:367-408 on property.py) and the functions the two optimisers hand to scipy, on doubles; `S_NcrFloat`: what it means that a double reports a factor | the error of D (C88 for plies, C94 for parameters) as a relative change of the bending energy, then C97: the nearness of pencils composes; objective and constraint by cases on the outcome; two worked plates with exact factors 671/496 and 161/62 |
| C99 | The given loads and the normalised loads of the optimisers | the normalisation and the constraint of C93 and C98 (`M_OptFloat`, `M_NcrFloat`); `S_LoadFloat`: the bound on the change of a reciprocal factor | entries of KG are linear in the loads with explicit weights, so the work of the loads moves by at most the bound times the squared length (C76 for the smallest factors of two near pencils); scaling of the loads; rounding of the quotients from C93 |
| C100 | The matrices of the coupled problem in double precision | `M_K` (calc_K_KG_ABD, structure.py:268-331, and the nine element functions of build_k.py) run over binary64; `S_AbdFloat`: usual inputs for a 6x6 array and the weights of the bound | each term as coefficient times products of table readings, with one predicate that carries the double, the number with stored and the number with exact integrals; sums of at most five terms; the blocks stacked as in C40 |
| C101 | The plotted buckling mode in double precision | `M_PlotFloat`: the grid, the values and the coordinates of plot_eigenvalue (structure.py:410-432) on doubles, `fxi` and `sxieta` of `M_Expr` over binary64; pow, the reading of literals and @ are arguments. `S_PlotFloat`: what is assumed of them, and the sums of the magnitudes of the coefficients from the formula in the literature | a function that gives for every syntax tree a bound of the value and of the error on [-1,1], proved sound by induction and run on the 50 texts; products and sums of rounded terms; the edge value by computation |
| C102 | The contour plot of the maximisation in double precision | `M_PlotOptFloat`: the three arrays and the two boundary curves of plot_optimization (utils.py:108-152) on doubles, from the grid of `M_PlotFloat`, the mask of `M_OptFloat` and the load of `M_NcrFloat`; the side of the arrays is the truncated square root computed in doubles. `S_PlotOptFloat`: the height above the boundary | the square root of a square is exact; entries of the reshaped list; C93 for the mask and the grid of C101; the gap on the boundary by computation with the six grid points |

No property is partial or inapplicable. Notes on scope are in MANIFEST.json.

## 6. Print Assumptions

Every property theorem, grouped by what `Print Assumptions` lists (each `P_*.v` prints it again when built).

* *closed under the global context* — 42 theorems: `C83_import` `C83_stored_functions` `C37_never` `C39_symmetric` `C08_one_material` `C08_many_materials` `C09_dict_accepted` `C88_lower` `C07_error` `C22_lamination_parameters` `C22_other` `C52_roundtrip` `C52_brackets_optional` `C52_group_needs_count` `C53_palindrome` `C53_half` `C52_errors` `C54_capital_s` `C55_alternating` `C55_no_count` `C56_nested` `C56_leak` `C56_glued` `C58_values` `C58_sout` `C58_sout_errors` `C57_fields` `C57_roundtrip` `C58_card` `C34_index_sets` `C34_default` `C34_errors` `C35_only_tx_rx` `C35_tz_refuted` `C36_mixed` `C36_names` `C36_refuted` `C70_nth` `C90_material` `C90_laminate` `C45_keys` `C45_symmetric`

* `ClassicalDedekindReals.sig_forall_dec` — 1 theorems: `C48_lengths`

* `ClassicalDedekindReals.sig_forall_dec`, `FunctionalExtensionality.functional_extensionality_dep` — 33 theorems: `C79_strip` `C59_count` `C59_assembly_error` `C42_pairs` `C42_first` `C42_first_above_one` `C73_region` `C71_generator` `C83_texts` `C83_numbers` `C83_injective` `C91_ex_lowest` `C98_ranking` `C47_normalised` `C47_error` `C47_warnings` `C48_triangle` `C48_inside` `C50_objective` `C86_flexibility` `C86_criterion` `C86_E1_alone` `C86_ex` `C63_bardell` `C46_product` `C46_fxi` `C44_grid` `C44_column` `C03_inverse_of_compliance` `C03_readable_iff` `C03_isotropic` `C04_pos_def_iff` `C04_not_enforced_refuted`

* `ClassicalDedekindReals.sig_forall_dec`, `ClassicalDedekindReals.sig_not_dec`, `FunctionalExtensionality.functional_extensionality_dep` — 106 theorems: `C85_build` `C85_matrices` `C85_layup` `C85_xi` `C85_tables` `C85_margin` `C85_dict` `C85_margin_refuted` `C85_xi_refuted` `C59_ex` `C89_reduced` `C89_between` `C89_movable` `C89_clamped` `C89_two_layers` `C71_rodrigues` `C83_functions` `C83_shapes` `C92_first` `C21_no_history` `C21_second_read_after_error` `C21_stale_after_reassignment` `C21_stale_refuted` `C21_aliased_array` `C78_same_text` `C09_xiB_ignored` `C10_interfaces` `C10_ends_and_steps` `C11_never_singular` `C11_Q_layup_defined` `C11_rotated_stiffness` `C11_multiple_angles` `C12_symmetric_invariants` `C12_angle_symmetries` `C13_symmetric` `C13_defined` `C14_symmetric_no_coupling` `C15_A_order` `C15_xiA_order` `C15_BD_order_refuted` `C16_flip` `C17_balanced` `C17_balanced_xiA` `C18_round_trip` `C19_ABD_pos_def` `C19_degenerate` `C20_feasible` `C20_defined` `C23_split` `C23_interfaces` `C24_rotation` `C24_tensor` `C24_group` `C94_path` `C80_angles` `C48_mixtures` `C49_region` `C49_feasible` `C49_tolerance_refuted` `C50_D` `C51_objective` `C51_weight` `C64_plot` `C64_errors` `C69_stiffer` `C69_one_side_refuted` `C69_ex` `C70_matrices` `C70_analysis` `C70_repeatable` `C70_plot` `C70_mixed` `C70_edit` `C70_edit_error` `C70_default_shared` `C70_retry` `C81_convex` `C81_reserve` `C81_multiplier` `C81_reduce` `C81_inside` `C81_frame` `C81_mirror` `C81_mirror_safe` `C86_laminate` `C43_ends` `C43_deflection` `C72_small_refuted` `C05_iff` `C05_angles_irrelevant` `C25_solves` `C25_exists` `C25_linear` `C25_energy` `C27_linear` `C27_continuous` `C28_consistent` `C28_rotation` `C29_shape` `C30_calls_independent` `C30_gamma_not_halved` `C30_lamination_parameters` `C32_position_swapped` `C32_never_agrees` `C61_isotropic_margin` `C62_superposition`

* `ClassicalDedekindReals.sig_forall_dec`, `Classical_Prop.classic`, `FunctionalExtensionality.functional_extensionality_dep` — 2 theorems: `C74_unique` `C74_same`

* `ClassicalDedekindReals.sig_forall_dec`, `ClassicalDedekindReals.sig_not_dec`, `Classical_Prop.classic`, `FunctionalExtensionality.functional_extensionality_dep` — 291 theorems: `C40_right_blocks` `C40_wrong_blocks` `C40_square` `C40_membrane_symmetric_iff` `C40_coupling_refuted` `C100_rounding` `C100_energy` `C79_column` `C79_long_plate` `C79_one_wave` `C79_biaxial` `C79_clamped` `C79_upper` `C79_clamped_upper` `C79_sandwich` `C79_safe` `C79_reported` `C42_overload` `C42_stable_iff` `C42_smallest_exists` `C42_pencil` `C42_critical` `C42_unsafe_refuted` `C42_ex_solver` `C42_ex_below` `C97_factors` `C97_many` `C97_divide` `C97_reported` `C97_raises` `C97_residual` `C97_count` `C97_solver` `C65_refine` `C65_reported` `C65_functions` `C66_monotone` `C66_safe` `C67_combined` `C67_convex` `C68_tension` `C68_compression` `C65_ex` `C66_ex` `C67_ex` `C67_ex_convex` `C68_ex` `C01_conversion` `C01_bool` `C73_stiffness` `C73_concave` `C73_local` `C73_maximise` `C73_minimise` `C73_ex_maximise` `C73_ex_minimise` `C89_unsafe` `C89_safe_refuted` `C89_layup` `C38_exact` `C38_stored` `C39_energy` `C39_semidefinite` `C39_definite` `C39_stored` `C39_singular` `C82_table` `C82_ABD` `C82_accepted` `C71_ends` `C71_sparse` `C71_second` `C83_integrals` `C83_file` `C83_clamped` `C83_stored_tables` `C91_minmax` `C91_exists` `C91_unique` `C91_first` `C91_refine` `C91_monotone` `C91_reported` `C91_all` `C91_list` `C91_reported_refine` `C91_ex` `C92_above` `C92_converges` `C92_exists` `C92_all` `C92_reported` `C37_sizes` `C37_limits` `C37_zero` `C39_arithmetics` `C41_linear_D` `C41_linear_N` `C41_lengths` `C41_swap` `C78_interfaces` `C78_ordered` `C78_strict` `C78_matrices` `C78_symmetric` `C78_laminate` `C78_absorbed_refuted` `C78_B_refuted` `C88_transformations` `C88_ply` `C88_matrices` `C88_factor` `C88_end` `C88_loop` `C88_right_angle_refuted` `C84_above` `C84_converges` `C84_exists` `C84_none` `C84_one_wave` `C84_long_plate` `C84_biaxial` `C84_navier` `C99_loads` `C99_normalised` `C99_carries` `C99_design` `C94_symmetric` `C94_errors` `C94_accurate` `C94_factor` `C94_end` `C31_tension` `C31_compression` `C31_shear` `C31_reals` `C31_infinite` `C31_negative_zero_refuted` `C31_zero_at_allowable` `C33_missing` `C33_smallest` `C33_all_infinite` `C33_nan_named_refuted` `C33_zero_allowables` `C31_columns` `C33_failure` `C87_array` `C87_accurate` `C87_definite` `C87_isotropic` `C87_invariants` `C87_zero_refuted` `C87_negative_refuted` `C87_singular_refuted` `C87_range_refuted` `C80_mirror` `C80_exchange` `C80_mirror_y` `C80_half_turn` `C80_quarter_turn` `C80_shear_sign` `C80_laminate` `C80_reported` `C80_small_refuted` `C06_reads` `C06_defined` `C06_unique` `C06_stable` `C06_explicit` `C07_exact` `C07_symmetric` `C07_transitive` `C07_reflexive` `C22_exact` `C22_raises` `C22_one_class` `C22_self` `C55_docstring_refuted` `C56_nested_refuted` `C98_layup` `C98_ncr` `C98_handed` `C98_feasible` `C93_normalised` `C93_error` `C93_infinite` `C93_nan` `C93_bounded_refuted` `C93_warnings` `C93_triangle` `C93_parabola` `C93_parabola_exact` `C93_overflow` `C93_nan_accepted` `C93_values` `C48_natural` `C50_factors` `C51_value` `C51_carries` `C50_refuted` `C51_unsafe_refuted` `C64_loads` `C50_value` `C69_buckling` `C76_margin` `C76_pencil` `C76_close` `C76_exists` `C76_reported` `C76_pinned_plate` `C70_default_refuted` `C101_functions` `C101_absolute` `C101_product` `C101_point` `C101_grid` `C101_coordinates` `C101_values` `C101_lengths` `C101_column` `C101_edge_refuted` `C101_loop` `C102_plot` `C102_region` `C102_errors` `C102_boundary_refuted` `C102_curves` `C90_equal` `C90_equal_refuted` `C90_history` `C90_stable` `C90_distinct` `C90_laminate_refuted` `C81_accuracy` `C77_rounding` `C77_entries` `C77_clamped` `C77_close` `C77_exists` `C77_pinned_plate` `C86_buckling` `C86_plies` `C86_limit` `C86_scaled` `C86_entries` `C86_E1_refuted` `C45_accuracy` `C74_exists` `C74_solver` `C74_analysis` `C74_panels` `C74_tie_refuted` `C74_ex_same` `C74_ex_analysis` `C72_functions` `C72_space` `C72_ritz` `C72_ex` `C72_ex_ritz` `C75_exact` `C75_accuracy` `C75_clamped` `C75_users` `C75_ritz` `C75_pencil` `C75_unsafe_refuted` `C75_rounded_refuted` `C25_errors` `C26_equilibrium` `C96_strain` `C96_stress` `C96_loads` `C96_epsilon0` `C96_tables` `C96_margins` `C96_loop` `C01_accepts` `C01_zero_division` `C01_value_error` `C01_total` `C01_nan_accepted` `C02_accepts` `C02_errors` `C02_default_allowables` `C60_accepts` `C60_errors` `C60_nonfinite` `C95_accurate` `C95_range` `C95_round_trip` `C95_unit_interval_refuted`

## 7. Wrong programs

`seeded/LOG.jsonl` records, per line, an edit of the model made in a scratch copy (a realistic programming error, or the repair
of a defect), the claim it concerns, the property theorems that no longer hold, and the theorems tightened afterwards. An edit
without failing theorems is either equivalent (said so) or led to a stronger theorem.
