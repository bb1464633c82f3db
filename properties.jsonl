{"id": "C01", "title": "Orthotropic material validation is exact", "statement": "OrthotropicMaterial(e1,e2,v12,g12,thickness,t1,c1,t2,c2,s) succeeds exactly when every argument converts to a float, e1,e2,g12,thickness,t1,c1,t2,c2,s are not below 0, v12 is not outside [-0.5,0.5] and e1 is not a zero; it raises ValueError when a conversion or range check fails and ZeroDivisionError when all checks pass but e1 is 0. On success the attributes read back are the converted floats. NaN and infinities are not rejected.", "quantifier": "every tuple of Python objects passed as arguments, including None, strings, ints, bools, NaN, infinities and signed zeros", "why_tests_cant": "IEEE comparisons with NaN and -0.0 and the order of the checks make an unbounded input space; tests sample a few numbers.", "anchors": ["composipy/core/material.py:OrthotropicMaterial.__init__", "composipy/utils/validators.py:ComposipyValidator._float_number"]}
{"id": "C02", "title": "Isotropic material: documented optional allowables", "statement": "The docstring of IsotropicMaterial says t, c, s are optional. At this commit a construction that leaves any of t, c or s at its default (None) raises ValueError for every value of the other arguments; a construction succeeds exactly when all seven numbers convert and pass the range checks.", "quantifier": "every argument tuple", "why_tests_cant": "A test shows one failure; the claim that no argument values can make the documented short form succeed ranges over all of them.", "anchors": ["composipy/core/material.py:IsotropicMaterial.__init__", "composipy/utils/validators.py:ComposipyValidator._float_number"]}
{"id": "C03", "title": "Q_0 is the inverse of the plane-stress compliance", "statement": "For every orthotropic material with non-zero e1, e2, g12 and 1 - v12*v21 != 0, Q_0 is symmetric, v21/e2 = v12/e1, and Q_0 multiplied (on either side) by the compliance matrix [[1/e1,-v21/e2,0],[-v12/e1,1/e2,0],[0,0,1/g12]] is the identity. The isotropic Q_0 equals the orthotropic Q_0 with e1=e2=e.", "quantifier": "every real-valued material with those denominators non-zero", "why_tests_cant": "Equality of rational functions over all moduli.", "anchors": ["composipy/core/material.py:OrthotropicMaterial.Q_0", "composipy/core/material.py:IsotropicMaterial.Q_0", "composipy/core/material.py:OrthotropicMaterial.v21"]}
{"id": "C04", "title": "Exactly which accepted materials have a positive definite stiffness", "statement": "For accepted materials Q_0 is positive definite if and only if e1,e2,g12 > 0 and v12^2*e2 < e1. The constructor does not enforce this: it accepts materials whose Q_0 is indefinite and materials for which reading Q_0 divides by zero.", "quantifier": "every accepted orthotropic material", "why_tests_cant": "An if-and-only-if over a continuum of materials; also existence of accepted inadmissible ones.", "anchors": ["composipy/core/material.py:OrthotropicMaterial.__init__", "composipy/core/material.py:OrthotropicMaterial.Q_0"]}
{"id": "C05", "title": "Isotropic plies have no direction", "statement": "For a ply with Q_0 from IsotropicMaterial, the rotated stiffness in Q_layup equals Q_0 for every angle if and only if g = e/(2(1+v)) (given e > 0 and |v| < 1); in that case A, B and D do not depend on the angles of the stacking.", "quantifier": "every angle, every isotropic material, every stacking", "why_tests_cant": "Ranges over all angles and stackings.", "anchors": ["composipy/core/property.py:LaminateProperty.Q_layup", "composipy/core/material.py:IsotropicMaterial.Q_0"]}
{"id": "C06", "title": "Automatic material names are unique and stable", "statement": "In any history of material constructions (some failing) and name reads, two distinct instances of the same class constructed without a name never report the same name, the same instance always reports the same name, an explicit name is returned unchanged, and failed constructions consume no number. Names of an OrthotropicMaterial and an IsotropicMaterial can coincide.", "quantifier": "every finite history of constructions and reads", "why_tests_cant": "Property of unbounded histories with lazily cached names.", "anchors": ["composipy/core/material.py:OrthotropicMaterial.name", "composipy/core/material.py:IsotropicMaterial.name", "composipy/core/material.py:OrthotropicMaterial._ids"]}
{"id": "C07", "title": "Material equality", "statement": "m1 == m2 between orthotropic materials holds exactly when the ten numeric attributes compare equal (the name is ignored); it is symmetric and transitive, and reflexive exactly when no attribute is NaN; comparing with anything that is not of the same class raises ValueError rather than returning False.", "quantifier": "every pair/triple of materials with any float attributes", "why_tests_cant": "Equivalence laws over all floats including NaN and signed zeros.", "anchors": ["composipy/core/material.py:OrthotropicMaterial.__eq__", "composipy/core/material.py:IsotropicMaterial.__eq__"]}
{"id": "C08", "title": "Angle laminates pair each angle with its ply", "statement": "LaminateProperty(stacking, plies) with a sequence of angles and one Material gives as many plies as angles, all that Material; with a list of plies it succeeds exactly when the lengths agree and otherwise raises ValueError; layup[i] is (stacking[i], plies[i]) for every i.", "quantifier": "every stacking list and every plies argument", "why_tests_cant": "All lengths and contents.", "anchors": ["composipy/core/property.py:LaminateProperty.__init__"]}
{"id": "C09", "title": "Lamination-parameter laminates: which dictionaries are accepted", "statement": "LaminateProperty(dict, plies) succeeds exactly when the dict has the keys xiD and T. A missing key never surfaces as the KeyError the code mentions: it is an UnboundLocalError. xiA and xiB are optional; xiB never influences A, B or D, and B is the zero matrix.", "quantifier": "every dictionary over the four keys and any extra keys", "why_tests_cant": "All subsets of keys and all values.", "anchors": ["composipy/core/property.py:LaminateProperty.__init__", "composipy/core/property.py:LaminateProperty.B"]}
{"id": "C10", "title": "Ply interfaces", "statement": "z_position has one more entry than the number of plies, starts at minus half the total thickness, ends at plus half, consecutive entries differ by the thickness of the corresponding ply, and it is (strictly) increasing when thicknesses are (positive) non-negative; the k-th entry is minus half the total plus the sum of the first k thicknesses.", "quantifier": "every list of plies of any length", "why_tests_cant": "Induction over list length; exact arithmetic.", "anchors": ["composipy/core/property.py:LaminateProperty.z_position"]}
{"id": "C11", "title": "Rotated ply stiffness is well defined and correct", "statement": "For every angle the 3x3 matrix inverted in Q_layup is non-singular (no LinAlgError can occur), and the stiffness returned equals the textbook closed form in powers of cos and sin and the multiple-angle form U1+U2 cos2t+U3 cos4t etc. with the U returned by Invariants().", "quantifier": "every real angle and every material", "why_tests_cant": "Trigonometric identities for a continuum of angles.", "anchors": ["composipy/core/property.py:LaminateProperty.Q_layup", "composipy/core/material.py:OrthotropicMaterial.Invariants"]}
{"id": "C12", "title": "Symmetries of the rotated stiffness", "statement": "For every angle the entries of Q_layup are symmetric matrices; adding 180 degrees changes nothing; negating the angle changes only the sign of the 16/26 terms; adding 90 degrees swaps 11 with 22 and 16 with -26; trace-type invariants Q11+Q22+2Q12 and Q66-Q12 do not depend on the angle.", "quantifier": "every real angle and every material", "why_tests_cant": "Continuum of angles.", "anchors": ["composipy/core/property.py:LaminateProperty.Q_layup"]}
{"id": "C13", "title": "A, B, D and ABD are symmetric", "statement": "For every laminate, built from angles or lamination parameters, A, B, D are symmetric 3x3 matrices and ABD is a symmetric 6x6 matrix whose blocks are A, B, B, D.", "quantifier": "every stacking/ply list and every lamination-parameter dictionary", "why_tests_cant": "All lists.", "anchors": ["composipy/core/property.py:LaminateProperty.A", "composipy/core/property.py:LaminateProperty.B", "composipy/core/property.py:LaminateProperty.D", "composipy/core/property.py:LaminateProperty.ABD"]}
{"id": "C14", "title": "Symmetric layups have no coupling", "statement": "If the layup read bottom-up equals the layup read top-down (angles modulo equality, equal plies) then B is exactly the zero matrix (in exact arithmetic).", "quantifier": "every palindromic layup of any length", "why_tests_cant": "All layups.", "anchors": ["composipy/core/property.py:LaminateProperty.B"]}
{"id": "C15", "title": "A ignores the stacking order", "statement": "A is unchanged by any permutation of the (angle, ply) pairs, and so is xiA under permutations of the plies; B and D are not.", "quantifier": "every layup and every permutation of it", "why_tests_cant": "All permutations of all lists.", "anchors": ["composipy/core/property.py:LaminateProperty.A", "composipy/core/property.py:LaminateProperty.xiA"]}
{"id": "C16", "title": "Flipping a laminate", "statement": "Reversing the layup leaves A and D unchanged and negates B.", "quantifier": "every layup", "why_tests_cant": "All lists.", "anchors": ["composipy/core/property.py:LaminateProperty.A", "composipy/core/property.py:LaminateProperty.B", "composipy/core/property.py:LaminateProperty.D"]}
{"id": "C17", "title": "Balanced laminates", "statement": "If for every ply at angle t there is an equally stiff, equally thick ply at -t (0 and 90 degree plies are their own partners) then A16 = A26 = 0 and xiA[1] = xiA[3] = 0.", "quantifier": "every layup with such a pairing", "why_tests_cant": "All layups, any interleaving.", "anchors": ["composipy/core/property.py:LaminateProperty.A", "composipy/core/property.py:LaminateProperty.xiA"]}
{"id": "C18", "title": "Lamination parameters reproduce the laminate", "statement": "For a stacking of one material with positive total thickness, the laminate built from {xiA: lam.xiA, xiD: lam.xiD, T: total thickness} has the same A and D as lam, and if the layup is symmetric the same ABD.", "quantifier": "every stacking and every orthotropic material", "why_tests_cant": "All stackings and angles.", "anchors": ["composipy/core/property.py:LaminateProperty.A", "composipy/core/property.py:LaminateProperty.D", "composipy/core/property.py:LaminateProperty.xiA", "composipy/core/property.py:LaminateProperty.xiD"]}
{"id": "C19", "title": "ABD is positive definite", "statement": "For every non-empty layup of positive-thickness plies whose Q_0 are positive definite, the ABD matrix is positive definite, hence invertible; the constructor-accepted values g12=0 or thickness=0 can make it singular.", "quantifier": "every non-empty layup, every angle, every admissible material", "why_tests_cant": "All layups; a definiteness claim cannot be tested.", "anchors": ["composipy/core/property.py:LaminateProperty.ABD"]}
{"id": "C20", "title": "Lamination parameters are feasible", "statement": "For every non-empty stacking of positive-thickness plies all components of xiA and xiD lie in [-1,1], xi3 >= 2*xi1^2-1, and if all angles are 0, 90 or +-45 degrees (mod 180) then xi3 >= 2|xi1|-1. Hence every realisable laminate satisfies natural_constraint_g >= 0 and every 0/45/90 laminate satisfies penalty_g1, penalty_g2 >= 0.", "quantifier": "every stacking, angle and thickness", "why_tests_cant": "Inequalities over all laminates.", "anchors": ["composipy/core/property.py:LaminateProperty.xiA", "composipy/core/property.py:LaminateProperty.xiD", "composipy/optimize/utils.py:natural_constraint_g", "composipy/optimize/utils.py:penalty_g1", "composipy/optimize/utils.py:penalty_g2"]}
{"id": "C21", "title": "Reading attributes has no history", "statement": "Any sequence of reads of A, B, D, ABD, Q_layup, T_layup, z_position, xiA, xiD on a laminate returns for each read the value a freshly constructed laminate would return; in particular reading B (which overwrites the cached A of lamination-parameter laminates) is not observable. After the caller re-assigns layup or writes into a returned array, earlier cached values are still served, so attributes may be stale.", "quantifier": "every finite sequence of reads (and writes by the caller)", "why_tests_cant": "Unbounded histories over lazily filled caches.", "anchors": ["composipy/core/property.py:LaminateProperty"]}
{"id": "C22", "title": "Laminate equality", "statement": "Two angle laminates built from orthotropic plies compare equal exactly when they have the same number of plies and pairwise equal angles and equal plies. All laminates built from lamination parameters compare equal to each other whatever their parameters.", "quantifier": "every pair of laminates", "why_tests_cant": "All pairs.", "anchors": ["composipy/core/property.py:LaminateProperty.__eq__"]}
{"id": "C23", "title": "Splitting a ply changes nothing", "statement": "Replacing one ply by any list of plies of the same angle and stiffness whose thicknesses add up to it leaves A, B, D unchanged, and the other interface positions too.", "quantifier": "every layup, every position, every subdivision", "why_tests_cant": "All subdivisions.", "anchors": ["composipy/core/property.py:LaminateProperty.A", "composipy/core/property.py:LaminateProperty.B", "composipy/core/property.py:LaminateProperty.D", "composipy/core/property.py:LaminateProperty.z_position"]}
{"id": "C24", "title": "Rotating the laminate rotates the matrices", "statement": "Adding one angle phi to every ply transforms A, B and D as fourth-order tensors: M(phi) = T_real(phi)^-1 M T_eng(phi); rotations compose, and rotating by phi then -phi is the identity.", "quantifier": "every layup and every angle", "why_tests_cant": "Continuum of angles and all layups.", "anchors": ["composipy/core/property.py:LaminateProperty.A", "composipy/core/property.py:LaminateProperty.B", "composipy/core/property.py:LaminateProperty.D"]}
{"id": "C25", "title": "Mid-plane strains solve the laminate equations", "statement": "epsilon0() returns the vector x with ABD x = (Nxx,Nyy,Nxy,Mxx,Myy,Mxy); it exists and is unique for every admissible laminate, is linear in the loads (superposition, scaling), is zero for zero load, and its energy N.x is positive for non-zero loads. LinAlgError is raised exactly when ABD is singular.", "quantifier": "every admissible laminate and every load vector", "why_tests_cant": "All laminates and loads.", "anchors": ["composipy/core/strength.py:LaminateStrength.epsilon0"]}
{"id": "C26", "title": "Ply stresses are in equilibrium with the loads", "statement": "Integrating the stresses reported by calculate_stress through the thickness (they vary linearly inside a ply) gives back exactly the applied Nxx,Nyy,Nxy, and integrating stress times z gives back Mxx,Myy,Mxy.", "quantifier": "every admissible laminate and every load", "why_tests_cant": "Integral identity over all laminates.", "anchors": ["composipy/core/strength.py:LaminateStrength._stressk", "composipy/core/strength.py:LaminateStrength.calculate_stress", "composipy/core/property.py:LaminateProperty.ABD"]}
{"id": "C27", "title": "Plate-direction strains are linear and continuous through the thickness", "statement": "In calculate_strain the strain at every row equals mid-plane strain plus z times curvature for the z in the same row; the top of each ply and the bottom of the next have equal strains in plate axes.", "quantifier": "every laminate, load, and pair of consecutive plies", "why_tests_cant": "All laminates.", "anchors": ["composipy/core/strength.py:LaminateStrength._epsilonk", "composipy/core/strength.py:LaminateStrength.calculate_strain"]}
{"id": "C28", "title": "Material-direction results are consistent", "statement": "In every row, (sigma1,sigma2,tau12) = Q_0 (epsilon1,epsilon2,gamma12) of that ply, the strain energy density sigma.epsilon is the same in both axis systems, sigma1+sigma2 = sigmax+sigmay and epsilon1+epsilon2 = epsilonx+epsilony.", "quantifier": "every laminate, load and row", "why_tests_cant": "All angles and loads.", "anchors": ["composipy/core/strength.py:LaminateStrength._epsilonk_123", "composipy/core/strength.py:LaminateStrength._stressk_123"]}
{"id": "C29", "title": "Shape of the result tables", "statement": "calculate_strain and calculate_stress have exactly two rows per ply, ordered bottom to top: rows 2i and 2i+1 carry ply number i+1, positions bot and top, the angle of ply i and z_position[i], z_position[i+1].", "quantifier": "every laminate and row index", "why_tests_cant": "All sizes.", "anchors": ["composipy/core/strength.py:LaminateStrength.calculate_strain", "composipy/core/strength.py:LaminateStrength.calculate_stress"]}
{"id": "C30", "title": "Computing material strains does not corrupt plate strains", "statement": "The in-place halving of the shear component done while computing material-direction strains is never visible in the epsilonx/epsilony/gammaxy columns nor in any later call: for any sequence of calculate_strain / calculate_stress / epsilon0 calls every call returns the same table.", "quantifier": "every sequence of method calls on one object", "why_tests_cant": "Aliasing of mutable arrays over unbounded call histories.", "anchors": ["composipy/core/strength.py:LaminateStrength._epsilonk_123", "composipy/core/strength.py:LaminateStrength.calculate_strain"]}
{"id": "C31", "title": "Sign of the maximum-stress margin is exact in floating point", "statement": "For finite double-precision values with allowable t1 > 0: margin_t1 < 0 if and only if sigma1 > t1; margin_c1 < 0 if and only if sigma1 < -c1; likewise for direction 2 and shear with |tau12| > s; the margin is +inf when the stress has the other sign or is +0. The exception is a stress of exactly -0.0, for which margin_t1 is -inf.", "quantifier": "every finite binary64 stress and allowable", "why_tests_cant": "2^128 pairs; rounding near equality decides the sign.", "anchors": ["composipy/core/strength.py:LaminateStrength.calculate_maxstressmargin"]}
{"id": "C32", "title": "Margin rows carry the position of the other face", "statement": "In calculate_maxstressmargin row 2i is computed from the stress at the bottom of ply i+1 but is labelled top, and row 2i+1 from the top but is labelled bot: for every laminate and every row the position label differs from the label calculate_stress gives to the same row, while ply and angle agree.", "quantifier": "every laminate and row", "why_tests_cant": "All laminates; a test sees one table.", "anchors": ["composipy/core/strength.py:LaminateStrength._calculate_maxstressallowable", "composipy/core/strength.py:LaminateStrength.calculate_maxstressmargin"]}
{"id": "C33", "title": "The critical mode is the smallest margin", "statement": "Whenever some margin of a row is neither NaN nor +inf, the critical column names a margin column whose value is not NaN and not greater than any other non-NaN margin of the row, the first such in the order t1,c1,t2,c2,s. It is missing exactly when all five are NaN (which zero allowables with zero stress produce). When every non-NaN margin is +inf it names margin_t1, even if that margin is NaN.", "quantifier": "every row of five floats including inf and NaN", "why_tests_cant": "All NaN/inf combinations.", "anchors": ["composipy/core/strength.py:LaminateStrength.calculate_maxstressmargin"]}
{"id": "C34", "title": "Shape-function index sets", "statement": "For named edge conditions (PINNED, CLAMPED or a dict of free/pinned/simply_supported/fixed/clamped in any letter case) the w index set is the product of the first m admissible x-functions and the first n admissible y-functions, where the functions 0,1 (2,3) are removed according to the condition of the x0/y0 (xa/yb) edge; each list has exactly m (n) strictly increasing entries below m+4 (n+4), so all loops stay in range.", "quantifier": "every m,n >= 1 and every combination of named conditions", "why_tests_cant": "All m, n and 5^4 conditions times letter cases.", "anchors": ["composipy/core/structure.py:PlateStructure._compute_constraints"]}
{"id": "C35", "title": "Component constraints on the y edges: only TX and RX have an effect", "statement": "With component lists, TY,TZ,RY,RZ given for y0 and yb never influence any result: the y-functions of v and w are always those of u. In particular a plate with TZ fixed on y0 may keep a w function that is non-zero there.", "quantifier": "every pair of constraint dictionaries that agree up to TY,TZ,RY,RZ on y edges", "why_tests_cant": "Non-interference over all constraint lists.", "anchors": ["composipy/core/structure.py:PlateStructure._compute_constraints"]}
{"id": "C36", "title": "Mixed dictionaries silently free the named edges", "statement": "If at least one edge is given as a list and another as one of the documented names, the named edge is treated as free in every respect, without an error.", "quantifier": "every dictionary mixing names and lists", "why_tests_cant": "All combinations.", "anchors": ["composipy/core/structure.py:PlateStructure._compute_constraints"]}
{"id": "C37", "title": "Largest usable m and n", "statement": "With named edges calc_K_KG_D raises KeyError exactly when some selected index is 30 or more, and otherwise returns two square matrices with m*n rows; free/free edges work up to m=30, pinned/pinned up to 28 and clamped/clamped up to 26, and every larger m or n accepted by the constructor fails.", "quantifier": "every m, n and every named condition", "why_tests_cant": "Unbounded m, n.", "anchors": ["composipy/pre_integrated_component/functions.py:ii_ff", "composipy/core/structure.py:PlateStructure.calc_K_KG_D", "composipy/pre_integrated_component/_ii_F.py"]}
{"id": "C38", "title": "K and KG entries are the energy integrals", "statement": "Entry ((i,j),(k,l)) of K from calc_K_KG_D is the bending-energy bilinear form of the shape functions S_ij and S_kl on the a x b plate, and that of KG the work of Nxx,Nyy,Nxy, up to an explicit bound coming from the accuracy of the stored integrals; rows and columns are ordered as sw_idx.", "quantifier": "every a,b > 0, every symmetric D, every load, every index below 30", "why_tests_cant": "Integrals over a continuum for all parameters.", "anchors": ["composipy/pre_integrated_component/build_k.py:calc_k33_ijkl", "composipy/pre_integrated_component/build_k.py:calc_kG33_ijkl", "composipy/core/structure.py:PlateStructure.calc_K_KG_D"]}
{"id": "C39", "title": "K and KG are symmetric, K is positive semidefinite", "statement": "K and KG of calc_K_KG_D are exactly symmetric, also in floating point; with exact integrals the quadratic form of K is the non-negative bending energy whenever D is positive semidefinite, and positive for every non-zero coefficient vector when D is positive definite and the named edges are restrained (one clamped or two held). Without that restraint, from three functions a side on, K is singular. With the stored tables the quadratic form is within an explicit bound of the energy.", "quantifier": "every plate, every coefficient vector", "why_tests_cant": "All coefficient vectors; definiteness.", "anchors": ["composipy/pre_integrated_component/build_k.py:calc_k33_ijkl", "composipy/core/structure.py:PlateStructure.calc_K_KG_D"]}
{"id": "C40", "title": "The coupled stiffness matrix (calc_K_KG_ABD)", "statement": "With exact integrals the blocks uv, vv, wv and ww of K are the coupled energy; uu is off by (b/a - a/b) A66, vu by (a/b - b/a) A16, uw and wu by explicit B11 and B26 terms, and block vw repeats block wu. Hence K is not symmetric in general (clamped plate with one function a side: uv = vu iff A16 = 0 or a = b; with B11 the only coupling K is never symmetric), but it is the full symmetric energy matrix for square plates with B = 0.", "quantifier": "every a,b, every ABD", "why_tests_cant": "All parameters; existence of non-symmetric instances.", "anchors": ["composipy/pre_integrated_component/build_k.py:calc_K11_ijkl", "composipy/pre_integrated_component/build_k.py:calc_k21_ijkl", "composipy/pre_integrated_component/build_k.py:calc_k13_ijkl", "composipy/pre_integrated_component/build_k.py:calc_k31_ijkl", "composipy/core/structure.py:PlateStructure.calc_K_KG_ABD"]}
{"id": "C41", "title": "Scaling laws of K and KG", "statement": "K is linear in D; KG is linear in (Nxx,Nyy,Nxy); scaling a and b together by t divides K by t^2 and leaves KG unchanged; swapping x and y (a with b, D11 with D22, D16 with D26, indices) is a symmetry.", "quantifier": "every plate and every scale factor", "why_tests_cant": "All reals.", "anchors": ["composipy/pre_integrated_component/build_k.py:calc_k33_ijkl", "composipy/pre_integrated_component/build_k.py:calc_kG33_ijkl"]}
{"id": "C42", "title": "Buckling factors", "statement": "Given an eigen-solver that meets its documentation, each pair (lambda, v) returned by buckling_analysis satisfies (K + lambda KG) v = 0 with v non-zero (an infinite lambda comes with KG v = 0). The first returned factor is the smallest positive factor whenever that one is at least 1. When it is below 1 it may be missing: if at least as many factors as requested are larger than the smallest and smaller than its reciprocal, every returned factor is too large, and this happens for every plate once the loads are increased enough. There is a clamped plate for which the only returned factor is above 1.3 while the smallest is below 0.62. The smallest positive factor decides stability of the plate energy.", "quantifier": "every pencil (K,KG), every requested number of eigenvalues, every solver meeting the documentation", "why_tests_cant": "All spectra.", "anchors": ["composipy/core/structure.py:PlateStructure.buckling_analysis"]}
{"id": "C43", "title": "Shape functions satisfy the edge conditions", "statement": "Every tabulated function with index >= 4 vanishes with its derivative at both ends; functions 0 and 2 have exactly one non-zero end value, equal to 1, and functions 1 and 3 exactly one non-zero end slope, equal to 1/2. Hence the deflection plotted by plot_eigenvalue is zero on pinned and clamped edges and has zero normal slope on clamped edges, for every coefficient vector.", "quantifier": "all 50 tabulated functions, all points of the edge, every coefficient vector", "why_tests_cant": "Continuum of points and coefficient vectors.", "anchors": ["composipy/pre_integrated_component/_S.py", "composipy/pre_integrated_component/functions.py:sxieta", "composipy/core/structure.py:PlateStructure.plot_eigenvalue"]}
{"id": "C44", "title": "plot_eigenvalue grid sizes", "statement": "plot_eigenvalue with non-empty grids evaluates every grid point if and only if ngridx = ngridy; otherwise it raises IndexError.", "quantifier": "every pair of positive grid sizes", "why_tests_cant": "All pairs.", "anchors": ["composipy/core/structure.py:PlateStructure.plot_eigenvalue"]}
{"id": "C45", "title": "The pre-integrated tables are the integrals", "statement": "Each of the 6 x 900 stored strings evaluates to within 1e-8 of the integral over [-1,1] of the product of the corresponding derivatives of the tabulated shape functions; the tables for equal derivative orders are exactly symmetric.", "quantifier": "all 5400 entries against true integrals", "why_tests_cant": "Equality with integrals needs proof; a numeric test would use the same floating point.", "anchors": ["composipy/pre_integrated_component/_ii_F.py", "composipy/pre_integrated_component/_S.py"]}
{"id": "C46", "title": "S is the product basis", "statement": "For every (i,j) the stored two-variable function S[(i,j)] evaluates at every (xi,eta) to FXI[i](xi)*FXI[j](eta).", "quantifier": "all 2500 pairs and all real points", "why_tests_cant": "Continuum of points.", "anchors": ["composipy/pre_integrated_component/_S.py", "composipy/pre_integrated_component/functions.py:sxieta"]}
{"id": "C47", "title": "Load normalisation", "statement": "normalize_critical_load returns loads in [-1,1], one of absolute value 1, that multiplied by the returned maximum give back the inputs; it raises ZeroDivisionError exactly when all three loads are zero (which check_loads only warns about).", "quantifier": "every triple of reals", "why_tests_cant": "All triples.", "anchors": ["composipy/optimize/utils.py:normalize_critical_load", "composipy/optimize/utils.py:check_loads"]}
{"id": "C48", "title": "Constraint functions describe the triangle and the parabola", "statement": "penalty_g1 >= 0 and penalty_g2 >= 0 hold together exactly on the region xi3 >= 2|xi1|-1, the mask used for plots agrees with them, on |xi1| <= 1 this region is inside natural_constraint_g >= 0, and both accept 2- and 3-element arguments alike and raise for other lengths.", "quantifier": "every real point and argument length", "why_tests_cant": "Continuum.", "anchors": ["composipy/optimize/utils.py:penalty_g1", "composipy/optimize/utils.py:penalty_g2", "composipy/optimize/utils.py:natural_constraint_g", "composipy/optimize/utils.py:_constraint"]}
{"id": "C49", "title": "Feasible lamination parameters give a positive definite D", "statement": "With xi2 = xi4 = 0, D is positive definite for every material with positive definite plane-stress stiffness and every T > 0 exactly on the region natural_constraint_g >= 0, xi3 <= 1. The optimisers relax the constraints by 1e-4: for materials with E2 <= E1 <= 1000 min(E2, G12) every point they accept still gives a positive definite D, for stronger anisotropy there are accepted points where D is not positive definite.", "quantifier": "every admissible material and every point", "why_tests_cant": "Continuum of materials and points.", "anchors": ["composipy/core/property.py:LaminateProperty.D", "composipy/optimize/utils.py:Ncr_from_lp", "composipy/optimize/utils.py:natural_constraint_g"]}
{"id": "C50", "title": "Thickness scaling of the buckling load", "statement": "D of a lamination-parameter laminate is T^3 times the D for T = 1 and does not depend on the dummy ply thickness; so K scales with T^3, KG is unchanged and the smallest buckling factor scales with T^3, and minimising T^3 is minimising T. The factor actually used by the optimisers scales that way as long as it is at least 1 at both thicknesses; below 1 it need not, for any solver behaving as documented.", "quantifier": "every T, material, parameters, loads and any documented eigen-solver", "why_tests_cant": "Continuum; quantifies over solvers.", "anchors": ["composipy/core/property.py:LaminateProperty.D", "composipy/optimize/utils.py:Ncr_from_lp", "composipy/optimize/_minimize_panel_weight.py:_objective_function"]}
{"id": "C51", "title": "Optimiser objective, solver failures and meaning of feasibility", "statement": "The maximisation minimises minus the first factor (+1 on ArpackError), the weight problem requires the first factor to be at least the largest load (-1 on ArpackError, hence never feasible); other exceptions propagate. At a feasible point the plate carries the given loads, or its smallest factor under the normalised loads is below 1; the second case occurs: there is a feasible point, for every documented solver that answers, whose plate buckles at less than half of the given load.", "quantifier": "every outcome of the solver, every documented solver, every plate and point", "why_tests_cant": "Quantifies over solvers and a continuum of plates.", "anchors": ["composipy/optimize/_maximize_buckling.py:maximize_buckling_load", "composipy/optimize/_minimize_panel_weight.py:minimize_panel_weight"]}
{"id": "C52", "title": "Layup strings round-trip", "statement": "For every well-formed layup (units angle or angle_n or angle_{n}, groups (u/.../u)_n, optional trailing s, optional \\\\pm on units) build_sequence of its text returns exactly the denoted sequence: unit angle repeated n times (alternating in sign for \\\\pm), groups repeated, and mirrored when symmetric.", "quantifier": "every layup expression of any length", "why_tests_cant": "Unbounded grammar.", "anchors": ["composipy/nastranapi/pcomp_generator.py:build_sequence", "composipy/nastranapi/pcomp_generator.py:_build_stack_unit", "composipy/nastranapi/pcomp_generator.py:_build_pm_unit"]}
{"id": "C53", "title": "A trailing s always gives a palindrome", "statement": "For every input string ending in s for which build_sequence returns, the result is a list followed by its mirror image, and dropping the s from a string without other s returns the first half.", "quantifier": "every string", "why_tests_cant": "All strings.", "anchors": ["composipy/nastranapi/pcomp_generator.py:build_sequence"]}
{"id": "C54", "title": "A trailing capital S never works", "statement": "build_sequence recognises a trailing S as symmetric but raises for every such string.", "quantifier": "every string ending in S", "why_tests_cant": "All strings.", "anchors": ["composipy/nastranapi/pcomp_generator.py:build_sequence"]}
{"id": "C55", "title": "Plus-minus units", "statement": "A \\\\pm unit with count n yields n plies of alternating sign starting with +, not n pairs: without a count the negative ply is missing. The docstring example does not produce the documented output.", "quantifier": "every angle and count", "why_tests_cant": "All counts.", "anchors": ["composipy/nastranapi/pcomp_generator.py:_build_pm_unit", "composipy/nastranapi/pcomp_generator.py:build_sequence"]}
{"id": "C56", "title": "Nested groups are mis-parsed silently", "statement": "build_sequence neither rejects nested groups nor computes them: there is a nested layup for which it returns a sequence different from the denoted one; for text before a parenthesis digits are concatenated.", "quantifier": "existence; and every string without nested parentheses is covered by the grammar theorem", "why_tests_cant": "Needs a specification of what the text denotes.", "anchors": ["composipy/nastranapi/pcomp_generator.py:build_sequence"]}
{"id": "C57", "title": "PCOMP cards contain every ply in order", "statement": "Splitting the text of build_pcomp at newlines and commas gives the header and, for each ply in order, its material id, thickness, angle and output request, two plies per line, where the output request of every second ply has a + glued to it; the last line of an odd sequence ends without + and newline.", "quantifier": "every sequence length and all field texts free of commas and newlines", "why_tests_cant": "All sizes.", "anchors": ["composipy/nastranapi/pcomp_generator.py:build_pcomp"]}
{"id": "C58", "title": "PCOMP argument expansion", "statement": "A scalar thickness or material id is used for every ply; a list is accepted exactly when its length matches; sout FIBER marks exactly the first and last ply YES, YES/NO all plies, any other sized argument of matching length is used as is (including the characters of a string) and everything else raises ValueError; an empty sequence raises IndexError with FIBER.", "quantifier": "every sequence length and argument", "why_tests_cant": "All sizes and arguments.", "anchors": ["composipy/nastranapi/pcomp_generator.py:_convert_to_list", "composipy/nastranapi/pcomp_generator.py:_convert_sout", "composipy/nastranapi/pcomp_generator.py:build_pcomp"]}
{"id": "C59", "title": "Number of eigenvalues requested", "statement": "buckling_analysis asks the solver for min(num_eigvalues, m*n-2) eigenvalues; for the constructor-accepted sizes m*n <= 2 this is not positive, so the analysis cannot succeed.", "quantifier": "every m, n, num_eigvalues", "why_tests_cant": "All sizes.", "anchors": ["composipy/core/structure.py:PlateStructure.buckling_analysis"]}
{"id": "C60", "title": "Integer and plate-argument validation", "statement": "PlateStructure accepts m and n exactly when they convert to a finite integral float of at least 1 (stored as that integer), a and b exactly when they convert and are not below 0 (zero and NaN included), loads exactly when they convert, and requires dproperty to be a Property.", "quantifier": "every argument tuple", "why_tests_cant": "All Python objects, NaN, infinities.", "anchors": ["composipy/core/structure.py:PlateStructure.__init__", "composipy/utils/validators.py:ComposipyValidator._int_number", "composipy/utils/validators.py:ComposipyValidator._is_instance"]}
{"id": "C61", "title": "Margin tables exist for orthotropic laminates only", "statement": "calculate_maxstressmargin raises AttributeError exactly when the laminate contains an isotropic ply (the ply has allowables t, c, s but no t1), even though stress and strain tables are available for such laminates.", "quantifier": "every laminate and load", "why_tests_cant": "All laminates.", "anchors": ["composipy/core/strength.py:LaminateStrength._allowablek_123", "composipy/core/material.py:IsotropicMaterial"]}
{"id": "C62", "title": "Superposition of load cases", "statement": "Every stress and strain column of calculate_stress and calculate_strain is linear in the six loads, row by row.", "quantifier": "every laminate, every two load cases and every real factor", "why_tests_cant": "Continuum of loads.", "anchors": ["composipy/core/strength.py:LaminateStrength.calculate_strain", "composipy/core/strength.py:LaminateStrength.calculate_stress"]}
{"id": "C63", "title": "The stored one-variable functions are the Bardell functions", "statement": "Each of the 50 stored one-variable texts evaluates at every real point to the Bardell hierarchical function of its index (Hermite cubics for 0..3, the factorial sum for 4 and more); every larger index raises KeyError.", "quantifier": "all 50 texts and all real points", "why_tests_cant": "Continuum of points, compared with a closed formula.", "anchors": ["composipy/pre_integrated_component/_S.py", "composipy/pre_integrated_component/functions.py:fxi"]}
{"id": "C64", "title": "Contour plot of the optimisation", "statement": "plot_optimization arranges p x p arrays over -1 + 2i/(p-1); the value at a point inside the triangle (or parabola) is the first factor there, every other point is nan; an exception at any drawn point, ArpackError included, ends the plot. The plot uses the given loads where the optimiser uses the normalised ones, so its values are the optimiser factors divided by the largest load.", "quantifier": "every p >= 2, plate, material, loads and solver", "why_tests_cant": "All sizes and a continuum of points.", "anchors": ["composipy/optimize/utils.py:plot_optimization", "composipy/optimize/utils.py:_constraint", "composipy/optimize/_maximize_buckling.py:maximize_buckling_load"]}
{"id": "C65", "title": "Refinement never raises the critical factor", "statement": "With exact integrals, using more shape functions (larger m or n), or releasing edges while still including all previous functions, never raises the smallest positive buckling factor; if a factor exists for the coarse plate it exists for the refined one. With a documented solver the first reported factor does not grow either, as long as the refined factor is at least 1.", "quantifier": "every plate with one clamped or two held edges and a positive definite D, all loads, all sizes the tables cover", "why_tests_cant": "Quantifies over all sizes and continuous parameters; relates two analyses.", "anchors": ["composipy/core/structure.py:PlateStructure.buckling_analysis", "composipy/core/structure.py:PlateStructure.calc_K_KG_D", "composipy/core/structure.py:PlateStructure._compute_constraints"]}
{"id": "C66", "title": "The critical factor is monotone in stiffness and loads", "statement": "Lowering the bending stiffness D (no curvature stores more energy) and adding compression (the change of the load tensor stretches no direction) never raises the smallest positive factor; a plate that is safe stays safe with a stiffer D and less compression.", "quantifier": "every pair of D matrices and load triples", "why_tests_cant": "Continuum; relates two analyses.", "anchors": ["composipy/core/structure.py:PlateStructure.calc_K_KG_D", "composipy/pre_integrated_component/build_k.py:calc_k33_ijkl", "composipy/pre_integrated_component/build_k.py:calc_kG33_ijkl"]}
{"id": "C67", "title": "Combined loads", "statement": "The reciprocal of the smallest positive factor is subadditive in the loads (Dunkerley rule: 1/l <= 1/l1 + 1/l2), and the set of loads under which a plate is safe is convex.", "quantifier": "every plate and every two load triples", "why_tests_cant": "Continuum; relates three analyses.", "anchors": ["composipy/core/structure.py:PlateStructure.calc_K_KG_D", "composipy/pre_integrated_component/build_k.py:calc_kG33_ijkl"]}
{"id": "C68", "title": "Tension does not buckle, compression does", "statement": "When the loads compress no direction (Nxx,Nyy >= 0, Nxy^2 <= Nxx Nyy) there is no positive factor and everything a documented solver returns is negative or infinite; when they stretch no direction and are not all zero a positive factor exists for every m,n >= 1.", "quantifier": "every plate and load triple of the two kinds", "why_tests_cant": "Continuum; existence for every size.", "anchors": ["composipy/core/structure.py:PlateStructure.buckling_analysis", "composipy/pre_integrated_component/build_k.py:calc_kG33_ijkl"]}
{"id": "C69", "title": "Plies added to the faces", "statement": "Adding plies on both faces with equal total thickness, or on either face of a laminate with B = 0, never makes D less stiff, so it never lowers the critical factor of a plate; adding a ply to one face of a coupled laminate can make D less stiff.", "quantifier": "every stack of physical plies, every cover, every plate", "why_tests_cant": "Unbounded stacks; existence of the exception.", "anchors": ["composipy/core/property.py:LaminateProperty.D", "composipy/core/property.py:LaminateProperty.z_position", "composipy/core/structure.py:PlateStructure.calc_K_KG_D"]}
{"id": "C70", "title": "Histories of plates sharing laminates and constraint objects", "statement": "calc_K_KG_D and buckling_analysis always use the present D of the laminate and the present contents of the constraint object, never a stored result; after a successful analysis, repeating it gives the same answer after any history of operations on any objects (re-assignment of laminate.layup included) that does not edit its constraint object. plot_eigenvalue draws a mode of the last analysis with the functions of that analysis unless the constraints were edited and the matrices assembled again, in which case it combines old coefficients with new functions without error. Plates built without constraints share one dictionary, so editing it on one changes the others. When a ply has no stiffness matrix the first assembly raises and the second returns a zero K.", "quantifier": "every history of operations on any number of laminates, constraint objects and plates, every solver", "why_tests_cant": "Unbounded histories with aliasing.", "anchors": ["composipy/core/structure.py:PlateStructure.__init__", "composipy/core/structure.py:PlateStructure.calc_K_KG_D", "composipy/core/structure.py:PlateStructure.buckling_analysis", "composipy/core/structure.py:PlateStructure.plot_eigenvalue", "composipy/core/property.py:LaminateProperty.D"]}
{"id": "C71", "title": "The generator of the shape functions", "statement": "The offline generator of the shape functions, run for any index however large, yields the Bardell function of that index: terms with a negative factorial contribute nothing and no double factorial raises. From index 4 on these functions are scaled (i-4)-th derivatives of (x^2-1)^(i-2); every one of them has the end values and slopes the edge conditions rely on; integrals of products of their derivatives vanish away from the diagonal, and their second derivatives are orthogonal with squared norm 2/(2i-3).", "quantifier": "every index and every real point", "why_tests_cant": "Unbounded index; sympy output can only be sampled.", "anchors": ["composipy/pre_integrated_component/write_shape_function.py:_orth_polynomials", "composipy/pre_integrated_component/write_pre_integrated_terms.py", "composipy/theoretical/write_bardell_terms.py"]}
{"id": "C72", "title": "The space of deflections and the Ritz principle", "statement": "For the documented edge names, when the functions and conditions of each direction add up to at least 4, the deflections a plate can represent (and plot_eigenvalue can draw) are exactly the polynomials that meet all edge conditions and whose degree in each direction is below the number of functions plus the number of conditions on the two edges, each from one coefficient vector only. So with exact integrals l is the critical factor of the assembled matrices exactly when l > 0, no such polynomial deflection has negative energy under l times the loads and some non-zero one has none. For fewer functions on free edges the statement fails.", "quantifier": "every named edge combination, all sizes, all polynomials, D, lengths and loads", "why_tests_cant": "Quantifies over function spaces.", "anchors": ["composipy/core/structure.py:PlateStructure._compute_constraints", "composipy/core/structure.py:PlateStructure.plot_eigenvalue", "composipy/core/structure.py:PlateStructure.calc_K_KG_D", "composipy/pre_integrated_component/functions.py:sxieta"]}
{"id": "C73", "title": "The optimisation problems are convex where they report the critical factor", "statement": "With exact integrals the smallest positive factor is a concave function of the bending stiffness, so of the lamination parameters; the feasible region of the lamination parameters is convex, and a local maximum of the critical factor over it is a global one. In the maximisation problem the feasible points (with the tolerance given to the optimiser) form a convex set and, where the critical factors are at least 1 and the solver answers, the objective lies on or below its chords. In the weight problem every point between two feasible points with critical factors of at least 1, thickness included, is feasible when the solver answers there, and the objective T^3 lies on or below the chord.", "quantifier": "every panel within the tables, every material with E2 <= E1 <= 1000 min(E2,G12), all loads, all pairs of points, every documented solver", "why_tests_cant": "Convexity over a continuum; relates three analyses.", "anchors": ["composipy/optimize/utils.py:Ncr_from_lp", "composipy/optimize/utils.py:natural_constraint_g", "composipy/optimize/utils.py:penalty_g1", "composipy/optimize/utils.py:penalty_g2", "composipy/optimize/_maximize_buckling.py:maximize_buckling_load", "composipy/optimize/_minimize_panel_weight.py:minimize_panel_weight"]}
{"id": "C74", "title": "What a documented eigenvalue solver can answer", "statement": "Every symmetric pencil with positive definite K and no eigenvalue at the shift has an answer as documented for every number of eigenvalues up to its size, and one documented solver can answer any finite number of such questions. So for every plate with at least three unknowns whose loads stretch no direction the analysis has a documented answer, with min(num_eigvalues, m*n-2) factors. Two documented solvers report the same factors for a plate unless two different factors of it are reciprocal; then they may differ: there is a clamped plate for which one reports a factor below 1 and the other a factor above 1.", "quantifier": "every pencil, every number of eigenvalues, every plate in compression, every pair of documented solvers", "why_tests_cant": "Existence and uniqueness over all spectra and solvers.", "anchors": ["composipy/core/structure.py:PlateStructure.buckling_analysis", "composipy/optimize/utils.py:Ncr_from_lp"]}
{"id": "C75", "title": "Clamped plates are computed with exact integrals", "statement": "Every stored integral of two of the functions 4..29 is exactly the integral it stands for, the others are within 1e-15 (numbers below 10), 2e-12 (below 20) and 1e-8 (below 30). So for a plate clamped on all four edges with m, n <= 26 calc_K_KG_D and calc_K_KG_ABD, and with them buckling_analysis, Ncr_from_lp, both optimisation problems and the contour plot, give exactly what exact integrals would give; the Ritz principle holds of the matrices the code really assembles, and the unsafe answer below factor 1 is an answer of the code as it stands. It is not so for pinned plates.", "quantifier": "every clamped plate with m, n <= 26, every stiffness, length and load; all 5400 stored integrals", "why_tests_cant": "Exactness of texts against integrals over a continuum; all plates.", "anchors": ["composipy/pre_integrated_component/_ii_F.py", "composipy/pre_integrated_component/functions.py:ii_ff", "composipy/core/structure.py:PlateStructure.calc_K_KG_D", "composipy/core/structure.py:PlateStructure.calc_K_KG_ABD"]}
{"id": "C76", "title": "How far the rounded tables move the buckling factor", "statement": "For every plate whose edges hold it and whose D is symmetric positive definite the bending energy is at least u > 0 times the squared length of the coefficients. If the rounding of the tables (explicit in D, a, b and the reach of the shape functions) times m*n is below u, the matrices assembled by the code form a symmetric pencil with positive definite K, the smallest factors l (exact) and l1 (code) satisfy |1/l - 1/l1| <= e/l1 + g with e, g that rounding over u, and neither exists without the other unless it is beyond 1/g. The first value returned by buckling_analysis with a documented solver is that close when l exceeds 1 by more than the rounding. For a square pinned plate with m = n = 2 it is within 1e-9 of the exact 2.", "quantifier": "every held plate, every load, every documented solver", "why_tests_cant": "Perturbation bound over a continuum of plates.", "anchors": ["composipy/pre_integrated_component/_ii_F.py", "composipy/core/structure.py:PlateStructure.calc_K_KG_D", "composipy/core/structure.py:PlateStructure.buckling_analysis"]}
{"id": "C77", "title": "Rounding errors of the matrices assembled in double precision", "statement": "For lengths between 2^-64 and 2^64, stiffnesses and loads that are zero or between 2^-200 and 2^200 in magnitude, and every power function accurate to 3 units and reading of literals to nearest, calc_K_KG_D evaluated in IEEE double precision raises nothing, returns finite square matrices symmetric to the last bit, and every entry is within 16 units (2^-53 each, in explicit weights of D, a, b and the loads) of the exact value with the stored integrals, hence within the tolerance of the tables plus 16 units of the exact energies (16 units alone for plates clamped all round, m and n up to 26). If that is below the margin of the plate, K as assembled is positive definite and its critical factor l1 satisfies |1/l - 1/l1| <= e/l1 + g. For a square pinned plate with m = n = 2 it is within 2e-10 of the exact 2.", "quantifier": "every plate of that size range, every conforming power function and literal reader", "why_tests_cant": "A bound on accumulated rounding over all inputs of a continuum; tests sample single plates.", "anchors": ["composipy/pre_integrated_component/build_k.py:calc_k33_ijkl", "composipy/pre_integrated_component/build_k.py:calc_kG33_ijkl", "composipy/pre_integrated_component/_ii_F.py", "composipy/core/structure.py:PlateStructure.calc_K_KG_D"]}
{"id": "C78", "title": "Ply heights and laminate matrices in double precision", "statement": "For 1 to 10^6 plies of thickness between 2^-64 and 2^64, z_position evaluated in IEEE double precision raises nothing and every interface is within n+1 units (2^-53) of the total thickness of its exact height; interfaces never decrease, and increase strictly when every ply is at least one unit of the total (a thinner ply can vanish: refuted). For arbitrary Q_layup arrays bounded by q, A, B and D are finite and within (3n+4) units times q times the total thickness to the power 1, 2, 3 of the exact sums; with Q_layup within eps of the exact one they are within that plus eps times the same power of the exact A, B, D. B of a mirror-symmetric layup is zero up to (3n+4) units, but not exactly (three plies of 0.1: refuted).", "quantifier": "every list of plies in that range, every arrays, every power function accurate to 3 units", "why_tests_cant": "A bound on accumulated rounding over all inputs; tests compare with a tolerance on single laminates.", "anchors": ["composipy/core/property.py:LaminateProperty.z_position", "composipy/core/property.py:LaminateProperty.A", "composipy/core/property.py:LaminateProperty.B", "composipy/core/property.py:LaminateProperty.D"]}
{"id": "C79", "title": "Classical bounds of the buckling load", "statement": "For uniaxial compression: no buckling load reported with exact integrals lies below Euler's load of a strip of the plate (bending stiffness det D / (D22 D66 - D26^2), length a, a/2 or 2a by the end conditions), whatever the side edges; below it the plate is safe. With every edge held and no bend-twist coupling none lies below the infinitely long plate 2(pi/b)^2(sqrt(D11 D22)+D12+2 D66), nor below the one-half-wave value pi^2(D11/a^2+2(D12+2D66)/b^2+D22 a^2/b^4) when a^4 D22 <= 4 b^4 D11; with biaxial loads each load is compared with its own direction. The simply supported plate with three or more functions per direction is within 0.14 per cent above the one-half-wave value, and the clamped plate is at most 42(D11/a^2+D22 a^2/b^4)+24(D12+2D66)/b^2. For clamped plates with the stored tables and a documented solver, a load up to Euler's makes the first number returned by buckling_analysis the critical factor, between these bounds.", "quantifier": "every plate with positive lengths and positive definite D, every number of functions for the lower bounds and the stated range for the upper ones", "why_tests_cant": "A two-sided bound with textbook formulas for a continuum of plates; tests compare a few plates with reference numbers.", "anchors": ["composipy/core/structure.py:PlateStructure.buckling_analysis", "composipy/core/structure.py:PlateStructure.calc_K_KG_D"]}
{"id": "C80", "title": "Mirror images, turned plates and exchanged axes", "statement": "With exact integrals (stored ones for clamped plates) the critical factor does not change when an axis is reversed (opposite edges exchanged, shear couplings of D and shear load with the opposite sign), when the plate is turned by a half or a quarter turn, or when the axes are exchanged. Changing the sign of all ply angles, or taking all complements to 90 degrees, makes of A, B and D exactly these images. So without shear coupling and with equal opposite edges the sign of the shear load does not matter. Mirror images need at least four functions reached in each direction: with one function in x a plate and its mirror image differ.", "quantifier": "every laminate, plate, load, edge naming and number of functions", "why_tests_cant": "Relates two analyses over a continuum of inputs.", "anchors": ["composipy/core/structure.py:PlateStructure.calc_K_KG_D", "composipy/core/structure.py:PlateStructure.buckling_analysis", "composipy/core/property.py:LaminateProperty.D", "composipy/pre_integrated_component/build_k.py:calc_k33_ijkl"]}
{"id": "C81", "title": "Failure envelope and reserve to failure", "statement": "Take a load as safe when no row of the margin table exceeds an allowable. The safe loads of a laminate form a convex set that contains the zero load, and the largest safe multiple of a load is one plus the smallest margin of its table. If a load is safe then the stress at every height inside every ply, not only on the faces reported, respects the allowables. The table does not depend on the plate axes: turning the axes changes only the angle column, and for the mirror image (angles and shear loads reversed) or exchanged axes only the sign of the shear stress changes. A margin in binary64 is the exact one up to 3 * 2^-53 * (1 + allowable/stress).", "quantifier": "every laminate, load and set of allowables; every finite allowable and stress whose quotient is between 2^-1022 and 2^1021", "why_tests_cant": "Statements about all multiples and mixtures of loads, all heights and all axes.", "anchors": ["composipy/core/strength.py:LaminateStrength.calculate_maxstressmargin", "composipy/core/strength.py:LaminateStrength.calculate_stress", "composipy/core/strength.py:LaminateStrength.epsilon0"]}
{"id": "C82", "title": "Plate lengths the assembly can work with", "statement": "The constructor takes every length that is not below zero. With Python floats, and whatever the stiffness, the loads, the boundary conditions it understands and the numbers of terms (1 to 26), the matrix assembly then raises ZeroDivisionError when a is at most 2^-359 (zero included) and OverflowError when a is at least 2^342; otherwise b decides in the same way; with both lengths between 2^-340 and 2^340, infinite or NaN it never raises, and with an infinite or NaN length not a single entry of either matrix is finite. The assembly from the full ABD matrix returns and raises on the same lengths.", "quantifier": "all doubles as lengths outside two narrow bands, all double stiffnesses and loads, all understood boundary conditions, all m and n from 1 to 26, all power functions with the stated range behaviour", "why_tests_cant": "tests use plates of a few hundred millimetres; which exception an extreme length raises, and that no other input can make the assembly raise, cannot be sampled", "anchors": ["composipy/pre_integrated_component/build_k.py:157-194", "composipy/core/structure.py:95-97", "composipy/core/structure.py:333-372"]}
{"id": "C83", "title": "Regenerating the stored files", "statement": "The two offline generators, run for any number N of functions, finish and write Python files that can be imported. The imported tables give, for any two functions with numbers from 4 up to N, exactly the integral over [-1,1] of the product of the derivatives each table names; the imported shape functions with numbers from 4 up to N evaluate at every point to the Bardell function; entries outside the range are missing (KeyError) and entries with a smaller number are the texts that were printed. With such a file both assembly functions are exact for plates clamped on all edges and any numbers of terms up to N - 4. Every polynomial with rational coefficients and every rational number that is printed is read back by eval as the same value. The files shipped with the package are literally this output: all stored integrals for numbers 4 to 29, all stored functions for numbers 4 to 49.", "quantifier": "every N, every pair of numbers, every polynomial with rational coefficients, every point, every clamped plate and load", "why_tests_cant": "the scripts have no tests; only the shipped files can be compared, at N = 30 and N = 50", "anchors": ["composipy/pre_integrated_component/write_pre_integrated_terms.py", "composipy/pre_integrated_component/write_shape_function.py", "composipy/pre_integrated_component/_ii_F.py", "composipy/pre_integrated_component/_S.py", "composipy/pre_integrated_component/functions.py"]}
{"id": "C84", "title": "Convergence to the buckling load of the continuous plate", "statement": "Call the stability limit of a plate the load multiplier up to which no deflection that has continuous derivatives up to the second order in each variable and respects the edge conditions has negative energy. With exact integrals, every critical multiplier the assembly and a documented solver produce lies at or above the limit, and with enough functions in both directions it lies within any given distance of it. The limit exists and is unique exactly when some admissible deflection gains work from the loads; otherwise no numbers of functions give a critical multiplier at all. For simply supported plates without bend-twist coupling the limit is Navier's closed form: one half wave pi^2(D11/a^2+2(D12+2D66)/b^2+D22 a^2/b^4)/N when a^4 D22 <= 4 b^4 D11, the long plate value 2(pi/b)^2(sqrt(D11 D22)+D12+2D66)/N when a^4 D22 = p^4 b^4 D11 for a whole p, and the corresponding balance for loads in both directions.", "quantifier": "every plate with positive lengths and symmetric positive definite D, every in-plane load, every edge condition the code accepts with definite stiffness, every tolerance", "why_tests_cant": "Convergence over unlimited numbers of functions towards a minimum over an infinite dimensional space; a test sees finitely many truncations and the package stores 30 functions.", "anchors": ["composipy/core/structure.py:PlateStructure.buckling_analysis", "composipy/core/structure.py:PlateStructure.calc_K_KG_D", "composipy/pre_integrated_component/functions.py"]}
{"id": "C85", "title": "A laminate after the lists it was built from have changed", "statement": "A laminate keeps references to the lists it was built from. Whatever the caller does to these lists afterwards, and whatever other laminates are built or used: A, B, D, ABD, Q_layup, T_layup, z_position and the comparison of laminates answer for the angles and plies at construction. xiA and xiD are computed from the angles and plies now in the lists, over the heights at construction, and raise IndexError when the list of angles has become longer. The tables of strains and stresses keep the values in plate directions and turn them by the angles now in the list, one pair of rows per angle; the margins compare the turned stresses with the allowables at construction, and so can call a failing laminate safe. A laminate built from a dictionary of lamination parameters follows changes of the lists that were in the dictionary and ignores entries assigned later.", "quantifier": "every sequence of list creations, changes in place, constructions and uses of any number of laminates; every stacking, ply list, dictionary and load", "why_tests_cant": "Needs all interleavings of in-place changes with uses of cached and uncached attributes.", "anchors": ["composipy/core/property.py:LaminateProperty.__init__", "composipy/core/property.py:LaminateProperty.xiA", "composipy/core/property.py:LaminateProperty.xiD", "composipy/core/strength.py:LaminateStrength"]}
{"id": "C86", "title": "Stiffness of the plies and the buckling load", "statement": "If the stiffness of every ply of a laminate is multiplied by something between lo and hi (not necessarily the same for every ply or every strain), the strain energy read off ABD, the matrices A and D, the critical buckling factor computed with exact integrals and the limit it converges to are multiplied by something between lo and hi; with all moduli times s the factor is times s. For orthotropic plies the comparison can be read off the engineering constants: a ply is at least as stiff as another exactly when e1, e2, g12 are no smaller and (v12/e1 - v12'/e1')^2 <= (1/e1-1/e1')(1/e2-1/e2'). A larger e1 alone is therefore never enough when v12 is not zero, and it can lower the buckling load. Errors of at most d in the entries of D change the factor by at most the share 3d/mu.", "quantifier": "all laminates of physical plies, plate sizes, named edge conditions, loads, m and n; all physical engineering constants; all symmetric D with quadratic form at least mu", "why_tests_cant": "monotonicity and sensitivity hold for a continuum of materials and plates, and the counterexample contradicts the intuition one would test", "anchors": ["composipy/core/material.py:OrthotropicMaterial.Q_0", "composipy/core/property.py:LaminateProperty.D", "composipy/core/property.py:LaminateProperty.ABD", "composipy/core/structure.py:PlateStructure.calc_K_KG_D"]}
{"id": "C87", "title": "Stiffness of a ply in double precision", "statement": "Evaluated in IEEE double precision, reading Q_0 of an accepted OrthotropicMaterial raises only ZeroDivisionError, exactly when the rounded product v12*v21 is 1, and otherwise returns an array that is symmetric to the last bit with g12 unchanged in the corner. For moduli between 2^-200 and 2^200 and 1 - v12*v21 of at least 2^-40 all entries are finite with a relative error of at most 7 units (2^-53) divided by 1 - v12*v21, the array is positive definite, and Invariants() is within 10 such units of |Q11|+|Q12|+|Q22|+|Q66|. IsotropicMaterial never raises, whatever its constructor accepted, and has 6 units. Without a margin from 1 - v12*v21 = 0 stable plies raise or get a negative Q11, singular ones get a finite Q_0, and out of the usual range a stable ply gets NaN.", "quantifier": "all accepted constructor arguments; for the accuracy all usual moduli with the margin", "why_tests_cant": "the bound is for all doubles; the failing inputs sit on single doubles near the singular ratio", "anchors": ["composipy/core/material.py:OrthotropicMaterial.Q_0", "composipy/core/material.py:OrthotropicMaterial.Invariants", "composipy/core/material.py:IsotropicMaterial.Q_0"]}
{"id": "C88", "title": "From the plies to the buckling load in double precision", "statement": "The path from the plies to the buckling load, evaluated in IEEE double precision throughout: angle in radians, transformation matrices, their inverse, the rotated stiffness of each ply, the sums for A, B and D, and the assembly of K and KG. numpy is assumed to give cos and sin within two units of 2^-53, squares and cubes within three, products of 3x3 arrays within four units of the sum of magnitudes, and an inverse with residual of k units. Then T_layup is within 100 units of the exact matrices, each array of Q_layup within (7k + 2400 + 15/mu) units of the stiffness of the ply (mu a bound for 1 - v12*v21), and A, B and D within (9n + 12 + that) units of stiffness times power of the thickness. The plate reads D on and below the diagonal only, so that the computed D is not exactly symmetric has no effect, and the buckling load computed in doubles from the plies differs from the exact one by explicit shares. At 90 degrees the computed matrices have nonzero numbers where the exact ones have zeros.", "quantifier": "all layups of up to a million plies of usual moduli and thickness with angles up to 360 degrees, every numpy within the stated accuracy, all sizes of plate up to the 30 stored functions", "why_tests_cant": "the bounds are for all doubles and every conforming numpy; tests compare against other computed values with a tolerance", "anchors": ["composipy/core/property.py:LaminateProperty.T_layup", "composipy/core/property.py:LaminateProperty.Q_layup", "composipy/core/property.py:LaminateProperty.A", "composipy/core/property.py:LaminateProperty.B", "composipy/core/property.py:LaminateProperty.D", "composipy/core/structure.py:PlateStructure.calc_K_KG_D"]}
{"id": "C89", "title": "What leaving out the coupling of bending and stretching does to the buckling load", "statement": "buckling_analysis works with the matrix D of the laminate alone; A and B play no part. For any layup of admissible plies the plate with its coupling has a buckling load C of its own (all smooth displacements u, v, w; the edges may hold u and v in any way): it lies between the limit for the reduced stiffness D - B A^-1 B, which is positive definite and no stiffer than D, and the limit for D; and it never exceeds any factor computed from D, so the result is never on the safe side. With B = 0 the factors converge to C. When B is a multiple of A the lower limit is exact, for edges that move freely and for plates clamped all round however the edges are held: for two layers the plate carries the share of the factor that the stiffness about the neutral surface has of D, 13/16 for equal layers one of which is three times as stiff. No multiple of the true load bounds the reported one: for every k some clamped plate of two layers has factors at least k times too high.", "quantifier": "all layups of admissible plies, plate sizes, loads, edges that leave no rigid motion, numbers of functions, in-plane edge conditions", "why_tests_cant": "The claim compares the code with the continuous plate over all displacements; tests compare one mesh with one value and unsymmetric layups have no closed form to compare with in general.", "anchors": ["composipy/core/structure.py:PlateStructure.buckling_analysis", "composipy/core/structure.py:PlateStructure.calc_K_KG_D", "composipy/core/property.py:LaminateProperty.A", "composipy/core/property.py:LaminateProperty.B", "composipy/core/property.py:LaminateProperty.D"]}
{"id": "C90", "title": "The text of a material or laminate: what it determines", "statement": "repr() of a material shows its class, the name that reading .name in its place would give, and all its numbers: equal texts mean the same class, the same name and the same numbers, whatever characters the name has. In every history of constructions, reads of names and repr() calls a material shows the same text each time, and two different materials constructed without a name never show the same text. Materials with the same text compare equal exactly if no number is NaN; the converse is false (0.0 and -0.0, or other names). repr() of a laminate determines the list of its angles, an int being told from a float, and nothing else: laminates that compare unequal can show the same text and equal ones different texts.", "quantifier": "all materials, names, angles and histories; any way of writing floats that is injective, not empty, without space or comma and never looks like an int", "why_tests_cant": "A test compares a few texts; that no name, containing separators and labels, makes two materials indistinguishable is a claim about all strings, and stability and distinctness are claims about all histories.", "anchors": ["composipy/core/material.py:OrthotropicMaterial.__repr__", "composipy/core/material.py:IsotropicMaterial.__repr__", "composipy/core/material.py:OrthotropicMaterial.name", "composipy/core/property.py:LaminateProperty.__repr__"]}
{"id": "C91", "title": "All reported buckling factors, not only the first", "statement": "Take the positive buckling factors of the assembled matrices in ascending order, each as often as it has independent modes. The one in place j (from 0) is the least multiple of the loads under which the energy is not positive on some space of j+1 dimensions of deflections, so the list is unique. With exact integrals none of them grows when functions are added, edges hold less, the bending stiffness is reduced or compression is added. With a documented solver buckling_analysis starts with exactly these factors as long as none is below 1; for a plate compressed in every direction that does not buckle below its loads the returned list is exactly the lowest positive factors, none left out, none infinite or negative, and under refinement no reported number grows. A square pinned plate under equal compression has the factors 1, 135/52 twice and 9/2.", "quantifier": "every symmetric pencil with positive definite K; every held plate, load, number of functions and documented solver", "why_tests_cant": "Min-max over all spaces of deflections; tests look at the first eigenvalue of a few plates.", "anchors": ["composipy/core/structure.py:PlateStructure.buckling_analysis", "composipy/core/structure.py:PlateStructure.calc_K_KG_D"]}
{"id": "C92", "title": "Convergence of all the buckling factors", "statement": "For the continuous plate call the limit of dimension j the multiplier of the loads above which, and not below which, some j smooth deflections (continuous derivatives up to the second order in each variable, edge conditions respected) have negative energy on all their combinations. With exact integrals the factor in place j, counted from 0 in ascending order with multiplicity, is never below the limit of dimension j+1, and with enough functions in both directions the first k factors exist and are all within any given distance of the first k limits. The limits ascend; each is unique and exists exactly when the loads do work on a space of that many dimensions, always so for loads that compress every direction; the first is the stability limit of C84. For such loads, a plate stable under them and any documented solver, the list returned by buckling_analysis converges entry by entry to the limits, with none left out.", "quantifier": "every held plate with positive lengths and symmetric positive definite D, every load, edge naming, number of factors, tolerance and documented solver", "why_tests_cant": "Limits over unlimited numbers of functions and min-max over spaces of smooth deflections.", "anchors": ["composipy/core/structure.py:PlateStructure.buckling_analysis", "composipy/core/structure.py:PlateStructure.calc_K_KG_D", "composipy/pre_integrated_component/functions.py"]}
{"id": "C93", "title": "Optimisation helpers in double precision", "statement": "With finite loads the normalisation raises ZeroDivisionError exactly when all are zero; otherwise the returned maximum is exactly the largest absolute load, each normalised load is a double nearest to the exact quotient, lies in [-1, 1], never has the opposite sign, and the largest becomes exactly 1 or -1. Warnings for finite loads are those of the exact loads, and normalised loads are not warned about as not normalised. With an infinite load the finite ones vanish and the infinite ones become NaN; with a NaN load the result depends on its place: all NaN, divided by the third load whatever the first, or divided by the larger of the others, so finite results can exceed 1. The penalty region accepts exactly the points violating the triangle by at most 2^-53, hence every point of the triangle; the parabola is accepted up to eight units for squares accurate to three units, and entirely for correctly rounded squares. A NaN xi3 is always accepted. The constraint functions are within 8 (penalties) and 15 (parabola) units of the exact values.", "quantifier": "every triple of doubles as loads, every point of doubles, every power function with the stated accuracy", "why_tests_cant": "Boundaries of a region at single doubles, and every subnormal, infinite or NaN operand.", "anchors": ["composipy/optimize/utils.py:normalize_critical_load", "composipy/optimize/utils.py:check_loads", "composipy/optimize/utils.py:penalty_g1", "composipy/optimize/utils.py:penalty_g2", "composipy/optimize/utils.py:natural_constraint_g", "composipy/optimize/utils.py:_constraint"]}
{"id": "C94", "title": "Laminates given by lamination parameters in double precision", "statement": "The arrays A and D computed in double precision from lamination parameters are symmetric to the last bit for every input, also NaN and infinities. Exceptions are those of reading Q_0, then ValueError unless there are four parameters, then that of the power. For parameters in [-1, 1] (or beyond by up to 1/1000), moduli and thickness of usual size, 1 - v12 v21 at least mu and numbers of Q_0 adding up to at most q, every entry of A is within 50/mu units of q T and every entry of D within 5/mu units of q T^3 of the exact one. The critical buckling factor with the computed D is within a stated share of the exact one, and from the parameters to the factor of the matrices assembled in double precision from the stored tables the error is bounded; this is the path of the optimisers.", "quantifier": "every ply, every list of parameters and thickness of doubles; for accuracy every ply, parameters in [-1, 1], plate and load in the stated range", "why_tests_cant": "Bounds for every ply and parameter on numbers that come out of dozens of roundings; a test sees single values.", "anchors": ["composipy/core/property.py:LaminateProperty.A", "composipy/core/property.py:LaminateProperty.D", "composipy/optimize/utils.py:Ncr_from_lp"]}
{"id": "C95", "title": "Lamination parameters of a layup in double precision", "statement": "For up to a million plies of usual thickness at angles up to 360 degrees, with cos and sin within two units at twice and four times the angle, the four numbers of xiA computed in double precision are finite and within 3 n + 120 units (n the number of plies) of those of the exact layup, those of xiD within 24 n + 150 units. Hence they stay in [-1, 1] and above the parabola xi3 = 2 xi1^2 - 1 up to xi_off and 6 xi_off. They can leave [-1, 1]: eight plies of thickness 0.1 at 0 degrees give xiA[0] and xiD[0] above 1. For a layup of one material, A and D computed from the plies and A and D computed from the computed parameters and the computed total thickness differ by at most the sum of the bounds of both ways and (3 n units + 2 xi_off) q T^p.", "quantifier": "every layup of usual plies, every numpy accurate as stated", "why_tests_cant": "Tests compare xiA and xiD of a few layups with numbers to a few digits, cannot show a bound for all layups and did not find a parameter above 1", "anchors": ["composipy/core/property.py:LaminateProperty.xiA", "composipy/core/property.py:LaminateProperty.xiD", "composipy/core/property.py:LaminateProperty.A", "composipy/core/property.py:LaminateProperty.D"]}
{"id": "C96", "title": "Strains, stresses and margins in double precision", "statement": "The path from the loads to the margins, evaluated in IEEE double precision: epsilon0, the tables of strains and stresses and the table of margins. numpy is assumed as in C88, with products of an array with a vector of n entries within n+1 units of the sum of magnitudes (the plain loop is proved to be so) and an inverse of the 6x6 array with residual r. Then the strains returned by epsilon0, multiplied by the exact ABD, give back every load within load_off, so they differ from the exact strains by at most the error of the loads divided by the smallest stiffness. calculate_strain and calculate_stress list the same plies, positions and angles as the exact tables; heights are within n+1 units of the thickness, strains within 2n+230 units and stresses within (3 ply_units + 9n + 1100) units of q times the size of the strains, plus the effect of the difference of the strains. A row of calculate_maxstressmargin without a negative margin means that the exact stresses of the given loads exceed no allowable by more than that bound, and stresses inside the allowables by that bound (and not within it of zero) give no negative margin. Where a margin is negative, the column critical names an allowable that is exceeded up to that bound.", "quantifier": "every layup of usual plies, every load, every numpy accurate as stated", "why_tests_cant": "Tests compare a few stresses with numbers to a few digits; whether the verdict of the margin table can be wrong, and by how much, is a statement on all layups and loads", "anchors": ["composipy/core/strength.py:LaminateStrength.epsilon0", "composipy/core/strength.py:LaminateStrength.calculate_strain", "composipy/core/strength.py:LaminateStrength.calculate_stress", "composipy/core/strength.py:LaminateStrength.calculate_maxstressmargin"]}
{"id": "C97", "title": "Buckling factors reported in double precision by an eigen-solver of limited accuracy", "statement": "buckling_analysis evaluated in IEEE double precision from the stiffnesses and loads to the returned list, with an eigen-solver that is not exact: its values are those of some pencil whose quadratic forms differ from the given ones by at most eps and gam times the stiffness form. Then, if no exact factor of the lowest ones is (nearly) below 1 or astronomically large, the list has min(num_eigvalues, m*n-2) entries and its j-th entry f is finite, positive and near the j-th lowest exact factor l, counted with its modes: |1/l - 1/f| <= (E(1+u)+u)/f + G, where E and G add up the rounding of the tables, of the assembly and the inaccuracy of the solver and u is 2^-53. Such solvers exist. Without any assumption on the solver, a returned pair with a small residual is near an eigenvalue, and j nearly orthonormal pairs with small residuals prove that there are j factors not above the largest reported one by more than a bound.", "quantifier": "every plate with documented edges up to 30 functions and conditions per direction, all usual inputs, every such solver", "why_tests_cant": "Tests compare a few factors to a few digits; that no factor is missed, repeated or out of place for every plate and every solver of the stated accuracy needs perturbation theory", "anchors": ["composipy/core/structure.py:PlateStructure.buckling_analysis", "composipy/core/structure.py:PlateStructure.calc_K_KG_D"]}
{"id": "C98", "title": "The buckling load in double precision from the plies or from lamination parameters", "statement": "Ncr_from_lp(a, b, T, m, n, xi1, xi3, ...) and PlateStructure(LaminateProperty(angles, ply), ...).buckling_analysis(), followed in IEEE double precision from the elastic constants and the layup (or the lamination parameters) through D, the tables and the assembled matrices to the returned factor, with an eigen-solver of limited accuracy: the returned value f is finite, positive and near the critical factor l of the exact laminate, |1/l - 1/f| <= (E(1+u)+u)/f + G, where E and G add up the share lost in D, in the tables and the assembly, and by the solver. The objective of maximize_buckling_load is exactly minus that load for the normalised loads, the buckling constraint of minimize_panel_weight is that load itself; all-zero loads raise ZeroDivisionError, a solver that does not converge gives the load -1 (never a feasible design), every other exception is passed on. A design that satisfies the computed constraint has a true factor of at least max_load/(1+E+G max_load), and two designs are ranked rightly up to the bounds.", "quantifier": "every plate with documented edges up to 30 functions and conditions per direction, all usual plies, layups, parameters and loads, every solver of the stated accuracy", "why_tests_cant": "A test compares one layup with a table value to a few digits; that the whole chain of roundings keeps the ranking of designs for every layup needs error bounds proved for all of them", "anchors": ["composipy/optimize/utils.py:Ncr_from_lp", "composipy/core/structure.py:PlateStructure.buckling_analysis", "composipy/optimize/_maximize_buckling.py:maximize_buckling_load", "composipy/optimize/_minimize_panel_weight.py:minimize_panel_weight"]}
{"id": "C99", "title": "The given loads and the normalised loads of the optimisers", "statement": "minimize_panel_weight divides the loads by the largest of them and works with the quotients rounded to double precision; its buckling constraint compares the computed factor with the largest load. For the exact plate the factor of the given loads times the largest load differs from the factor of the normalised loads, in reciprocals, by at most a bound explicit in m, n, a, b and the stiffness margin of the plate (some units of 2^-53), and neither exists without the other unless the bound reaches it; more generally the critical factor moves continuously with the loads. So a design whose computed constraint is satisfied carries the loads it was given up to the errors of C98 and this bound: with x at least the largest load mx and x within E and G of the factor of the exact plate, the exact plate has no buckling factor below 1/(1 + E + (G + bound) mx) under the given loads.", "quantifier": "All plates with held edges and positive definite D, all finite loads that are not all zero, all numbers of terms within the tables, all solvers, all E and G", "why_tests_cant": "Tests can try a few loads whose quotients are rounded; the statement is about every load and about factors that the code never computes (those of the unrounded loads).", "anchors": ["composipy/optimize/utils.py:normalize_critical_load", "composipy/optimize/_minimize_panel_weight.py:minimize_panel_weight", "composipy/optimize/_maximize_buckling.py:maximize_buckling_load"]}
{"id": "C100", "title": "The matrices of the coupled problem in double precision", "statement": "calc_K_KG_ABD evaluated in IEEE double precision: for lengths between 2^-64 and 2^64, entries of ABD and loads that are zero or between 2^-200 and 2^200, every form of the edge conditions it accepts and up to 26 functions in each direction it raises nothing and returns two square matrices of 3mn rows with finite entries. Each entry of K is within 16 units of 2^-53 (times explicit weights in A, B, D, a and b) of the entry computed without rounding from the stored integrals, and within those units plus the accuracy of the stored integrals of the one with exact integrals; likewise KG. For symmetric A, B and D the blocks uv, vv, wv and ww are therefore the energy of the coupled plate up to that bound, KG is the work of the loads in the block ww up to its bound and exactly zero elsewhere; the other blocks of K are as far from the energy as C40 says.", "quantifier": "all usual lengths, laminate matrices and loads, all edge conditions that are understood, m and n up to 26, every power and every reading of literals accurate as stated", "why_tests_cant": "a bound on the rounding of every entry for all inputs; no test builds these matrices, which no other function of the package uses", "anchors": ["composipy/core/structure.py:PlateStructure.calc_K_KG_ABD", "composipy/pre_integrated_component/build_k.py:6-194", "composipy/pre_integrated_component/functions.py"]}
{"id": "C101", "title": "The plotted buckling mode in double precision", "statement": "plot_eigenvalue followed in IEEE double precision. At every double of [-1,1] the stored one-variable functions evaluate to a finite double within i/2+8 units of 2^-53 of the sum of the magnitudes of the coefficients of the i-th Bardell function: 1e-14 for the first ten, 1e-11 for the first twenty, 2e-8 for the first thirty and a quarter for all fifty; the products of two within i/2+j/2+18 units of the product of these sums. The grid points are doubles of [-1,1], exactly -1 and 1 at the ends and within 6 units of equal distances, the coordinates within 7 units of the side. On a square grid every plotted value is finite and within n+70 units (n the number of functions) of the deflection with the stored coefficients at that grid point; on any other grid, or for a column the eigenvectors do not have, the call ends in IndexError, and with fewer coefficients than functions in ValueError. The loss is real: at the edge xi=1 the last function, exactly zero there with its slope, is computed as more than 1/2048, so a held edge is not plotted as zero.", "quantifier": "all doubles of [-1,1], all lists of up to 2500 stored index pairs, all finite coefficients of usual size, all square grids of 2 to 10^6 points a side, every pow below one unit in the last place and every order of summation in @", "why_tests_cant": "polynomials with coefficients up to 1e13 cancel; a test at some points with the default ten terms sees neither the growth of the error with the index nor that it is bounded at every point", "anchors": ["composipy/core/structure.py:410-440", "composipy/pre_integrated_component/functions.py:53-69", "composipy/pre_integrated_component/_S.py:1-2561"]}
{"id": "C102", "title": "The contour plot of the maximisation in double precision", "statement": "The arrays drawn by maximize_buckling_load(plot=True), followed in IEEE double precision, are p x p; row i and column j belong to doubles x and y of [-1, 1] within 6 units of 2^-53 of -1+2i/(p-1) and -1+2j/(p-1). Where (x, y) is at least 6 units above the boundary (the two lines with penalty, the parabola without) the entry is the first factor computed for x and y under the loads as given; where it is more than 8 units below, NaN; with the lines exactly the points at most one unit below have a value. For the equidistant points themselves 40 units decide. The boundary curves drawn have abscissae within 4 units of equal distances in [-1, 0] and [0, 1] and lie within 9 units of the lines or the parabola. The call fails only with an exception of the analysis at a point that would be drawn, and every such exception, also that of the solver which the optimisation itself catches, ends it. Points on the boundary are not treated alike: with 6 points a side (1/5, -3/5) is a gap while its mirror image (-1/5, -3/5), on the boundary as well, has a value.", "quantifier": "all grids of 2 to 10^6 points a side, both boundaries, every plate, material, load and edge condition, every solver, every pow with squares accurate to three units", "why_tests_cant": "a plot is looked at and not compared; which points of a grid fall out by rounding depends on the number of points", "anchors": ["composipy/optimize/utils.py:plot_optimization", "composipy/optimize/utils.py:_constraint", "composipy/optimize/_maximize_buckling.py:maximize_buckling_load"]}
