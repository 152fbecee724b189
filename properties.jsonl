{"id": "C01", "title": "mitgrid write/read round trip", "statement": "If write_mitgridfile(f,g,ni,nj) returns for a grid g whose 16 matrices have their nominal shapes, then read_mitgridfile(f,ni,nj) returns exactly the same 16 matrices, bit for bit (NaN payloads, signed zeros and infinities included), with strict=False and with strict=True.", "quantifier": "every ni, nj >= 0 and every 64-bit pattern in every entry of the 16 matrices", "why_tests_cant": "the tests read a handful of fixed files and compare to 7 decimals; the claim is bitwise, for all shapes and all bit patterns", "anchors": ["simplegrid/gridio.py:read_mitgridfile", "simplegrid/gridio.py:write_mitgridfile", "simplegrid/mitgridfilefields.py"]}
{"id": "C02", "title": "mitgrid file layout", "statement": "A file written by write_mitgridfile has exactly 16*(ni+1)*(nj+1)*8 bytes, and entry (i,j) of the k-th field is the big-endian IEEE double at double-offset k*(ni+1)*(nj+1) + j*(ni+1) + i; every padding position holds +0.0.", "quantifier": "every ni, nj, field, index pair and value", "why_tests_cant": "a layout error (row/column order, field order, endianness, padding) on some shape is invisible to a test of square or symmetric grids", "anchors": ["simplegrid/gridio.py:write_mitgridfile", "simplegrid/mitgridfilefields.py:names,ni_delta_sizes,nj_delta_sizes,datatype,order"]}
{"id": "C03", "title": "a truncated grid file is never read as a grid", "statement": "If writing a grid file is interrupted at any byte (crash, full disk, or an exception raised by a later field), read_mitgridfile with the same ni,nj raises on what is left; it never returns a grid.", "quantifier": "every grid, every ni,nj, every byte position strictly before the end of the file, strict or not", "why_tests_cant": "crash points range over all byte offsets of all files", "anchors": ["simplegrid/gridio.py:write_mitgridfile", "simplegrid/gridio.py:read_mitgridfile"]}
{"id": "C04", "title": "strict mode flags exactly the nonzero padding", "statement": "For a file holding at least 16*(ni+1)*(nj+1) doubles, read_mitgridfile(strict=True) raises RuntimeError if and only if some entry of a padding row or column that will be trimmed compares unequal to zero (NaN counts as nonzero, -0.0 does not); otherwise it returns what strict=False returns.", "quantifier": "every file content, ni, nj", "why_tests_cant": "the padding of 16 differently padded matrices over all contents cannot be sampled", "anchors": ["simplegrid/gridio.py:read_mitgridfile"]}
{"id": "C05", "title": "read then write reproduces the file", "statement": "Reading a file (strict=False) and writing the result back with the same ni,nj succeeds and yields the original bytes with the padding zeroed and any bytes beyond the 16 segments dropped; in particular the bytes are identical when the padding was +0.0 and the size exact.", "quantifier": "every byte string of sufficient length, every ni, nj", "why_tests_cant": "all byte strings, including NaN patterns that a numeric comparison cannot tell apart", "anchors": ["simplegrid/gridio.py:read_mitgridfile", "simplegrid/gridio.py:write_mitgridfile"]}
{"id": "C06", "title": "writing with the wrong cell counts is rejected", "statement": "For a grid whose matrices have the nominal shapes for counts (ni0,nj0), write_mitgridfile with counts (ni,nj) returns only if (ni,nj)=(ni0,nj0); otherwise it raises ValueError (numpy broadcasting does not let a mismatch through).", "quantifier": "every pair of count pairs and every grid", "why_tests_cant": "numpy broadcasts silently in some shapes (1-sized axes); whether a mismatch can slip through is a question over all shapes", "anchors": ["simplegrid/gridio.py:write_mitgridfile"]}
{"id": "C07", "title": "absent fields are written as NaN, unknown ones raise", "statement": "A field whose value is None is written as NaN over its nominal (unpadded) extent with +0.0 padding, all other fields are unaffected, and the file reads back in strict mode; a missing key raises KeyError and leaves a file that read_mitgridfile rejects.", "quantifier": "every subset of None fields, every missing key, every ni, nj >= 0", "why_tests_cant": "65536 subsets of fields times all shapes", "anchors": ["simplegrid/gridio.py:write_mitgridfile"]}
{"id": "C08", "title": "nearest returns a true minimiser", "statement": "When nearest returns indices (i,j) they are within the matrix, dist is the geodesic distance from (lon,lat) to (lons[i,j],lats[i,j]), no other point of the matrix is strictly closer, and it is the first such point in the order in which numpy walks the array's memory.", "quantifier": "every matrix, every search origin, every memory layout, every distance function (NaN distances included)", "why_tests_cant": "all matrices with all tie patterns and memory layouts", "anchors": ["simplegrid/util.py:nearest"]}
{"id": "C09", "title": "nearest outside its domain", "statement": "nearest raises ValueError when the two matrices differ in shape (or are empty), and returns (-1,-1,1e10) exactly when no point is closer than 1e10 (for instance when every distance is NaN).", "quantifier": "every pair of matrices, every origin", "why_tests_cant": "the sentinel result is data dependent and untested", "anchors": ["simplegrid/util.py:nearest"]}
{"id": "C10", "title": "fill preserves the given points", "statement": "computegrid.fill returns a grid of the same shape in which every given point (positions ilb+2*lon_subscale*a, jlb+2*lat_subscale*b) and everything outside [ilb..iub]x[jlb..jub] is bit-for-bit what was passed in.", "quantifier": "every grid, subscales >= 1, cell counts, geodesic", "why_tests_cant": "in-place update loops over views: an overlap on some size would corrupt points tests do not look at", "anchors": ["simplegrid/computegrid.py:fill"]}
{"id": "C11", "title": "fill computes the documented subdivision, independent of visiting order", "statement": "After fill, points on given columns are the equally spaced geodesic subdivision points between consecutive given points in the i direction, and all remaining points are the subdivision points, in the j direction, between those; the result does not depend on the order in which numpy iterates.", "quantifier": "every grid, subscales >= 1, every iteration order of both sweeps", "why_tests_cant": "iteration order is a schedule chosen by numpy from the memory layout", "anchors": ["simplegrid/computegrid.py:fill"]}
{"id": "C12", "title": "0..360 longitude convention", "statement": "If no longitude passed to fill is negative then no longitude returned by fill is negative (given that the geodesic library returns longitudes in [-180,180]); if some is negative, subdivision longitudes are returned unchanged.", "quantifier": "every grid and geodesic with finite longitudes in [-180,180]", "why_tests_cant": "sign conventions at the +-180 meridian depend on float comparison of arbitrary inputs", "anchors": ["simplegrid/computegrid.py:fill"]}
{"id": "C13", "title": "shapes and positions of the sixteen matrices", "statement": "mkgrid/regrid return all sixteen fields, each with shape (ni+ni_delta, nj+nj_delta) as tabulated in mitgridfilefields; XG,YG are the cell corners and XC,YC the cell centres of the refined grid.", "quantifier": "every subscale pair >= 1 and (for regrid) every selected region", "why_tests_cant": "the shape table must hold for all sizes and for all sixteen fields", "anchors": ["simplegrid/computegrid.py:tomitgrid", "simplegrid/mitgridfilefields.py"]}
{"id": "C14", "title": "edge-length fields", "statement": "Each of DXG,DYG,DXF,DYF,DXC,DYC,DXV,DYU at (i,j) is the sum of exactly the two half-cell geodesic distances it is documented to span, and is 0 when one of the two half-cells lies outside the grid or has zero length.", "quantifier": "every refined grid, every index, every geodesic", "why_tests_cant": "eight hand-written index patterns, each over all indices and sizes", "anchors": ["simplegrid/computegrid.py:edges", "simplegrid/computegrid.py:tomitgrid"]}
{"id": "C15", "title": "area fields", "statement": "Each of RAC,RAZ,RAW,RAS at (i,j) is the sum of exactly the four quarter-cell areas around the documented point, and is 0 when one of them lies outside the grid or has zero area.", "quantifier": "every refined grid, every index", "why_tests_cant": "four hand-written index patterns over all indices and sizes", "anchors": ["simplegrid/computegrid.py:areas", "simplegrid/computegrid.py:tomitgrid"]}
{"id": "C16", "title": "undefined boundary values are zero", "statement": "In every grid produced by mkgrid, regrid or the recomputation inside addfringe, the entries that straddle the tile boundary (DXC,DXV,RAW,RAZ at i=0 and i=ni; DYC,DYU,RAS,RAZ at j=0 and j=nj) are exactly +0.0.", "quantifier": "every input", "why_tests_cant": "for all sizes and inputs; a single ring value leaking in would break it", "anchors": ["simplegrid/computegrid.py:edges", "simplegrid/computegrid.py:tomitgrid", "simplegrid/mkgrid.py:mkgrid", "simplegrid/regrid.py:regrid"]}
{"id": "C17", "title": "mkgrid corner and count contract", "statement": "For integer subscales >= 1 mkgrid always returns, its counts equal the subscales, and the four extreme corners are bit-exactly: NW at (0,nj)=(lon1,lat1), SE at (ni,0)=(lon2,lat2), SW at (0,0)=(lon1,lat2), NE at (ni,nj)=(lon2,lat1). For any subscale <= 0 it raises.", "quantifier": "every four floats, every integer subscale pair", "why_tests_cant": "all integers, all floats", "anchors": ["simplegrid/mkgrid.py:mkgrid"]}
{"id": "C18", "title": "mkgrid is regrid of a single cell", "statement": "Refining the 1x1 mkgrid grid with regrid over its own NW/SE corners with subscales (p,q) yields bit for bit the grid that mkgrid returns for (p,q), provided each requested corner is the strictly nearest of the four corner points to itself.", "quantifier": "every corner pair, every p,q >= 1", "why_tests_cant": "a relation between two entry points over all parameters", "anchors": ["simplegrid/mkgrid.py:mkgrid", "simplegrid/regrid.py:regrid"]}
{"id": "C19", "title": "regrid preserves existing corner points", "statement": "Every XG/YG corner point of the selected region appears, bit for bit, in the refined XG/YG at (lon_subscale*i, lat_subscale*j), and the returned counts are (cells selected)*(subscale) in each direction.", "quantifier": "every grid, region, subscale pair >= 1", "why_tests_cant": "the documented promise is for all grids and refinements", "anchors": ["simplegrid/regrid.py:regrid", "simplegrid/computegrid.py:fill"]}
{"id": "C20", "title": "regrid aligns the output to the requested diagonal", "statement": "The grid point nearest to (lon1,lat1) is at output index (0,nj) and the one nearest to (lon2,lat2) at (ni,0), whatever the orientation of the input grid.", "quantifier": "every input orientation and corner choice", "why_tests_cant": "all four orientations times all grids", "anchors": ["simplegrid/regrid.py:regrid"]}
{"id": "C21", "title": "regrid's rotation loop terminates", "statement": "If both requested corners have a nearest grid point and these differ in both indices, regrid performs at most three 90-degree rotations (even when several grid points are equally near, since numpy visits a rotated view in the same memory order).", "quantifier": "every grid, every pair of corners, every memory layout", "why_tests_cant": "termination is not testable", "anchors": ["simplegrid/regrid.py:regrid"]}
{"id": "C22", "title": "regrid hangs when one corner has no nearest point", "statement": "Documented: regrid raises ValueError for bad corner input. Actual: whenever exactly one of the two requested corners has no point nearer than 1e10 (e.g. a NaN coordinate), the loop never ends, for any number of rotations.", "quantifier": "every grid and every such corner pair, every number of iterations", "why_tests_cant": "a test can only time out", "anchors": ["simplegrid/regrid.py:regrid", "simplegrid/util.py:nearest"]}
{"id": "C23", "title": "regrid input selection", "statement": "mitgridfile takes precedence over xg_file/yg_file, which take precedence over mitgrid_matrices; ValueError is raised exactly when no source is usable, when ni or nj is missing or 0 with a file source, or when the selected points are not diagonal.", "quantifier": "every combination of keyword arguments", "why_tests_cant": "all combinations of present, absent and empty arguments", "anchors": ["simplegrid/regrid.py:regrid"]}
{"id": "C24", "title": "regrid rotates the caller's matrices in place", "statement": "Documented: mitgrid_matrices is an input. Actual: after regrid(mitgrid_matrices=g,...) the caller's g['XG'] and g['YG'] are rotated by as many quarter turns as regrid needed, while the other fourteen matrices are not; they are unchanged exactly when no rotation was needed.", "quantifier": "every grid and corner pair", "why_tests_cant": "a side effect on the caller's object that no test inspects", "anchors": ["simplegrid/regrid.py:regrid"]}
{"id": "C25", "title": "degenerate regions are rejected", "statement": "regrid raises ValueError if and only if the two nearest points share a row or a column index (for a valid source and shapes), in particular when both corners resolve to the same point.", "quantifier": "every grid and corner pair", "why_tests_cant": "all pairs of points", "anchors": ["simplegrid/regrid.py:regrid"]}
{"id": "C26", "title": "matchedges only returns opposite edges", "statement": "Whenever matchedges returns, the edge pair is (E,W), (W,E), (N,S) or (S,N), the returned slices select exactly those edges of the two tiles, and the join slice selects the ring row or column of the tile-A compute grid next to that edge with as many entries as the returned edge vectors.", "quantifier": "every pair of tiles of any sizes, every geodesic", "why_tests_cant": "all geometries, including those matching on several edges", "anchors": ["simplegrid/matchedges.py:matchedges"]}
{"id": "C27", "title": "matchedges accepts adjacent tiles", "statement": "If both corners of one edge of A coincide with the two corners of the opposite edge of B, and no other two corners of A and B are near each other, matchedges reports exactly that pair of edges (given a B with at least two rows/columns across the edge and enough points along it).", "quantifier": "all four orientations, all tile sizes, every geodesic with dist(p,p)=0", "why_tests_cant": "completeness over all geometries", "anchors": ["simplegrid/matchedges.py:matchedges"]}
{"id": "C28", "title": "matchedges rejects non-adjacent tiles", "statement": "matchedges raises ValueError when no corner of A is within tolerance of a corner of B, when fewer than two corners match, when only diagonally opposite corners match, and when all four corners match (e.g. a tile with itself).", "quantifier": "every pair of tiles", "why_tests_cant": "all geometries", "anchors": ["simplegrid/matchedges.py:matchedges"]}
{"id": "C29", "title": "matchedges inspects corners only", "statement": "Documented: detects whether a common edge exists. Actual: acceptance depends only on the four corner points of each tile: tiles whose edges share end points but differ at every interior edge point, or have different numbers of points, are accepted.", "quantifier": "every pair of tiles", "why_tests_cant": "the false positive is data dependent", "anchors": ["simplegrid/matchedges.py:matchedges"]}
{"id": "C30", "title": "addfringe keeps tile A's data", "statement": "The grid returned by addfringe has the shapes of tile A and agrees with tile A, bit for bit, at every entry of all sixteen fields that is not zero (NaN entries included); XG and YG are returned unchanged everywhere.", "quantifier": "every pair of tiles", "why_tests_cant": "all data patterns, NaN and signed zeros included", "anchors": ["simplegrid/addfringe.py:addfringe"]}
{"id": "C31", "title": "addfringe never computes the fringe", "statement": "Documented: addfringe computes the boundary entries of tile A along the common edge from tile B. Actual: for every pair of tiles every boundary entry (DXC,DXV,RAW,RAZ at i=0,ni; DYC,DYU,RAS,RAZ at j=0,nj) that was zero in A is +0.0 in the result.", "quantifier": "every pair of tiles for which addfringe returns", "why_tests_cant": "the shipped baselines were generated by the same code and record the zeros as expected output", "anchors": ["simplegrid/addfringe.py:addfringe", "simplegrid/computegrid.py:edges", "simplegrid/computegrid.py:tomitgrid"]}
{"id": "C32", "title": "addfringe's result does not depend on tile B", "statement": "Given two B tiles that both match A on the same edge, whose longitudes next to the edge agree on whether any is negative, addfringe returns identical grids: nothing else of B reaches the result.", "quantifier": "every A and every two matching B", "why_tests_cant": "non-interference is a relation between all pairs of runs", "anchors": ["simplegrid/addfringe.py:addfringe", "simplegrid/matchedges.py:matchedges"]}
{"id": "C33", "title": "addfringe is idempotent", "statement": "Applying addfringe again, with the same tile B, to a tile produced by addfringe returns that tile unchanged.", "quantifier": "every pair of tiles", "why_tests_cant": "all inputs; relation between two runs", "anchors": ["simplegrid/addfringe.py:addfringe"]}
{"id": "C34", "title": "stitch places every entry", "statement": "When stitch returns, the counts are those of A plus B across the common edge and of A along it, all sixteen fields have the nominal shapes for these counts, every entry off the seam is the entry of A or B at the corresponding position, and seam entries are taken from A (after addfringe).", "quantifier": "all four edge pairs, all tile sizes, all sixteen fields", "why_tests_cant": "64 hand-written concatenations over all sizes", "anchors": ["simplegrid/stitch.py:stitch"]}
{"id": "C35", "title": "stitch rejects tiles of different width", "statement": "If the two tiles have different cell counts along the common edge, stitch raises; it never returns a grid.", "quantifier": "every pair of tiles with different counts", "why_tests_cant": "all sizes", "anchors": ["simplegrid/stitch.py:stitch", "simplegrid/matchedges.py:matchedges"]}
{"id": "C36", "title": "stitch is symmetric off the seam", "statement": "If A and B have no zero entries off their boundaries, stitch(A,B) and stitch(B,A) return the same counts and agree at every entry not on the seam.", "quantifier": "every matching pair of tiles", "why_tests_cant": "relation between two runs over all inputs", "anchors": ["simplegrid/stitch.py:stitch"]}
{"id": "C37", "title": "seam values of a stitched grid are not computed", "statement": "Documented: stitch assigns common-edge boundary quantities. Actual: for tiles whose boundary entries are zero (as mkgrid and regrid produce) the seam entries of DXC,DXV,RAW,RAZ (E/W) or DYC,DYU,RAS,RAZ (N/S) in the stitched grid are +0.0 in every case.", "quantifier": "every pair of tiles for which stitch returns", "why_tests_cant": "the shipped baselines record the zeros as expected output", "anchors": ["simplegrid/stitch.py:stitch", "simplegrid/addfringe.py:addfringe"]}
{"id": "C38", "title": "command-line results can be written and read back", "statement": "If sgmkgrid, sgregrid, sgaddfringe or sgstitch computes a grid, writing the output file succeeds, and reading it in strict mode with the reported counts returns exactly the computed grid.", "quantifier": "every successful run", "why_tests_cant": "composition of all modules over all inputs", "anchors": ["simplegrid/mkgrid.py:main", "simplegrid/regrid.py:main", "simplegrid/addfringe.py:main", "simplegrid/stitch.py:main", "simplegrid/gridio.py"]}
{"id": "C39", "title": "failed commands leave all files untouched", "statement": "If one of the four grid commands raises, no file has been created, truncated or modified; if it returns, only outfile has changed.", "quantifier": "every command, argument set and file system content", "why_tests_cant": "all failure points", "anchors": ["simplegrid/mkgrid.py:main", "simplegrid/regrid.py:main", "simplegrid/addfringe.py:main", "simplegrid/stitch.py:main"]}
{"id": "C40", "title": "command histories keep files whole", "statement": "After any sequence of the four grid commands (successful or not) every file is either byte-identical to the initial file system or a complete grid file that reads in strict mode with some counts.", "quantifier": "every finite history of commands from every initial file system", "why_tests_cant": "all histories", "anchors": ["simplegrid/mkgrid.py:main", "simplegrid/regrid.py:main", "simplegrid/addfringe.py:main", "simplegrid/stitch.py:main"]}
{"id": "C41", "title": "lonlat2cart maps to the unit sphere and ignores rad", "statement": "In exact arithmetic every returned point has norm 1, and adding 360 to a longitude does not change it. The rad argument is ignored: documented to scale the result, it has no effect.", "quantifier": "every lon/lat matrix, every rad", "why_tests_cant": "all real inputs", "anchors": ["simplegrid/util.py:lonlat2cart"]}
{"id": "C42", "title": "planar quadrilateral area", "statement": "In exact arithmetic pquad_uarea is half the norm of the cross product of the diagonals: non-negative, invariant under cyclic relabelling, reversal and translation of the corners, quadratic under scaling, and equal to the exact area for parallelograms.", "quantifier": "all corner points in space", "why_tests_cant": "all real inputs", "anchors": ["simplegrid/util.py:pquad_uarea"]}
{"id": "C43", "title": "spherical quadrilateral area", "statement": "In exact arithmetic, for corners on the unit sphere whose two sub-triangles have pairwise non-parallel corners, every arccos argument in squad_uarea lies in [-1,1], and the value depends only on dot products (invariant under rotation and reflection).", "quantifier": "all corner points on the sphere", "why_tests_cant": "all real inputs", "anchors": ["simplegrid/util.py:squad_uarea"]}
{"id": "C44", "title": "choice of the area formula", "statement": "The faceted formula is used exactly when the means of the nonzero x- and y-edge lengths are both below 10 km, for the whole grid at once; if all edges are zero (mean of nothing) the spherical one is used.", "quantifier": "every compute grid", "why_tests_cant": "data-dependent branch over all inputs", "anchors": ["simplegrid/computegrid.py:areas", "simplegrid/config.py:PLANAR_SPHER_TRANSITION"]}
{"id": "C45", "title": "edge lengths are great-circle distances", "statement": "With an exact spherical geodesic, DYG(i,j) of every mkgrid/regrid result is the great-circle distance between corners (i,j) and (i,j+1), DXG(i,j) between corners (i,j) and (i+1,j) on every original grid line, and the cells along an original edge have equal length.", "quantifier": "all regions and subscales, exact arithmetic, nonantipodal neighbours", "why_tests_cant": "a geometric identity over the reals", "anchors": ["simplegrid/computegrid.py:fill", "simplegrid/computegrid.py:tomitgrid"]}
{"id": "C46", "title": "areas tile the domain", "statement": "In exact arithmetic with nonzero quarter-cell areas, the sum of RAC over all cells equals the total of all quarter-cell areas, and equals the sum over RAZ, RAW or RAS when their boundary cells are completed.", "quantifier": "all grid sizes", "why_tests_cant": "all sizes", "anchors": ["simplegrid/computegrid.py:tomitgrid"]}
{"id": "C47", "title": "getobcs default boundaries", "statement": "When no OB vectors are given, the tracer boundary indices are the outermost tracer cells on all four sides, and every boundary array has one entry per cell along the side.", "quantifier": "all regional grid sizes", "why_tests_cant": "all sizes", "anchors": ["simplegrid/getobcs.py:getobcs"]}
{"id": "C48", "title": "getobcs cannot accept boundary index vectors", "statement": "Documented: OB_Jnorth etc. select the boundary cells. Actual: every vector with two or more entries raises ValueError, every nonzero scalar (the command-line form) raises TypeError; only one-element vectors are accepted.", "quantifier": "every vector of every length, for each of the four boundaries", "why_tests_cant": "no test exercises getobcs; holds for all vectors", "anchors": ["simplegrid/getobcs.py:getobcs"]}
{"id": "C49", "title": "getobcs cannot disable a boundary", "statement": "Documented: an identically zero vector disables a boundary. Actual: no argument value whatsoever disables a boundary; a zero scalar, empty or one-element zero vector selects the default edge instead. The files go to resultsdir as given, by default to the results directory without its slashes at the end and with _obcs added; each has one number per cell along the side, level (one for two-dimensional results) and time.", "quantifier": "every argument value", "why_tests_cant": "a universally quantified negative", "anchors": ["simplegrid/getobcs.py:getobcs"]}
{"id": "C50", "title": "getobcs staggering of velocity points", "statement": "For default boundaries the normal velocity is taken on the inner face of the boundary cell (V at row nj-1 / row 1 for N / S, U at row ni-1 / row 1 for E / W), tangential velocities and tracers at the boundary cell, and no fancy index is out of range for regional grids with at least one cell.", "quantifier": "all regional sizes >= 1", "why_tests_cant": "all sizes, all four sides, all three point types", "anchors": ["simplegrid/getobcs.py:getobcs"]}
{"id": "C51", "title": "getobcs output files are not in Fortran order", "statement": "Documented/intended: column-major (x fastest) double files for MITgcm. Actual: asfortranarray followed by tofile writes x slowest: entry (x,depth,time) is at offset (x*ndepths+depth)*ntimes+time; it coincides with the intended order for all data only if at most one of the three extents exceeds 1.", "quantifier": "every array shape and content", "why_tests_cant": "all shapes; a test on one time step and depth passes", "anchors": ["simplegrid/getobcs.py:getobcs"]}
{"id": "C52", "title": "interpolation weight file names", "statement": "weightfilename is injective in the four grid extents and the response type for a fixed method, but ignores its extension argument and the grid contents, so two different grids of equal shape share a weight file and reuse_weights applies the first grid's weights to the second.", "quantifier": "all shapes, response types, extensions, pairs of grids", "why_tests_cant": "injectivity over all naturals; a history of two calls", "anchors": ["simplegrid/getobcs.py:weightfilename", "simplegrid/getobcs.py:getobcs"]}
{"id": "C53", "title": "mds2mitgrid shapes and padding", "statement": "Every field that can be read is returned transposed, with one zero row/column appended where mitgridfilefields says so; unreadable fields are None; the counts are those of the first readable field; a result whose readable fields agree in shape can be written by write_mitgridfile and reads back in strict mode. getobcs without a parent file and parent matrices takes this grid and these counts.", "quantifier": "every results directory content", "why_tests_cant": "all subsets of present files and shapes", "anchors": ["simplegrid/mds2mitgrid.py:mds2mitgrid", "simplegrid/gridio.py:write_mitgridfile"]}
{"id": "C54", "title": "wrmds/rdmds data round trip", "statement": "For a 2-d or 3-d float64 array, rdmds of what wrmds wrote (dataprec float64, same byte order, no itr or a fixed itr) returns the same values with the same shape. File names contain none of the wildcard characters *, ? and [.", "quantifier": "every array shape with positive extents, every 64-bit value", "why_tests_cant": "all shapes and bit patterns", "anchors": ["simplegrid/mds.py:wrmds", "simplegrid/mds.py:rdmds"]}
{"id": "C55", "title": "meta files written by wrmds parse back", "statement": "parsemeta of the text wrmds writes returns exactly nDims, dimList, dataprec, nrecords and timeStepNumber with the written values.", "quantifier": "every list of dimensions, record count and iteration number", "why_tests_cant": "all integers through a formatter and a regular-expression parser", "anchors": ["simplegrid/mds.py:wrmds", "simplegrid/mds.py:parsemeta"]}
{"id": "C56", "title": "comment stripping", "statement": "strip_comments removes // and /* */ comments outside quotes, leaves quoted strings untouched, and leaves text without '/' and quotes unchanged.", "quantifier": "every text line", "why_tests_cant": "all strings through a regular expression", "anchors": ["simplegrid/mds.py:strip_comments"]}
{"id": "C57", "title": "iteration scan is sorted and complete", "statement": "scanforfiles returns, in ascending order, exactly the iteration numbers of the matching meta files, preferring tiled files when any exist. File names contain none of the wildcard characters *, ? and [.", "quantifier": "every directory listing", "why_tests_cant": "all directory contents", "anchors": ["simplegrid/mds.py:scanforfiles"]}
{"id": "C58", "title": "degenerate cells give NaN areas", "statement": "In the spherical formula, a quarter cell two of whose corners coincide (neighbours, or the diagonal pair along which it is cut) and whose computed self dot product is not below 1 yields a NaN area in IEEE arithmetic (arccos domain or 0/0), whatever the other corners are, and RAC for the cell is then NaN, not 0: the zero test that suppresses undefined values does not catch it (RAC is 0 only if a different quarter of the cell has area exactly 0).", "quantifier": "every grid with such a cell", "why_tests_cant": "depends on IEEE propagation through 12 operations for all other operands", "anchors": ["simplegrid/util.py:squad_uarea", "simplegrid/computegrid.py:tomitgrid"]}
{"id": "C59", "title": "matchedges returns the middle line of B's edge cells", "statement": "Whenever matchedges returns, the returned edge vector is the middle line, from one end of the edge to the other, of the strip of cells between A's edge and B's next row or column, subdivided by two along the edge and across it (with the strip's own longitude convention).", "quantifier": "every pair of tiles of any sizes, every geodesic, all four orientations", "why_tests_cant": "the offsets into B (second or second to last row or column) and into the strip differ for all four orientations and all sizes", "anchors": ["simplegrid/matchedges.py:matchedges", "simplegrid/computegrid.py:fill"]}
{"id": "C60", "title": "getobcs processes one time step per T file", "statement": "The list of time steps is sorted and has exactly one entry for every file T.*.data in the results directory, the first run of digits of its base name; Documented: one entry per solution time. Actual: a step stored in several tiles appears once per tile.", "quantifier": "every results directory content", "why_tests_cant": "all directory listings, including tiled output", "anchors": ["simplegrid/getobcs.py:getobcs"]}
{"id": "C61", "title": "negative boundary indices", "statement": "Documented: negative OB indices count from the end, -1 being the last cell. Actual: on the north side index z names cell nj+z; on the south and west sides (tracers and tangential velocities) it names the cell before that one, and the most negative valid index raises IndexError.", "quantifier": "every negative index in range, every field of the right shape", "why_tests_cant": "off-by-one only on two of four sides and only for negative indices", "anchors": ["simplegrid/getobcs.py:getobcs"]}
{"id": "C62", "title": "getobcs changes only its OB files", "statement": "Whatever the arguments and whatever the outcome, every file other than the OB* files of the output directory is unchanged; in particular no *.meta or *.data results file is.", "quantifier": "every argument set, every directory content, success and failure at any point", "why_tests_cant": "all failure points in the loop over responses, times and depths", "anchors": ["simplegrid/getobcs.py:getobcs"]}
{"id": "C63", "title": "spherical areas are additive and independent of the diagonal", "statement": "In exact arithmetic squad_uarea of a convex cell does not depend on which diagonal the code cuts it along (naming the corners from another one gives the same value), and cutting a convex cell from one side to the opposite one gives two convex cells whose areas add up to that of the whole.", "quantifier": "all convex spherical quadrilaterals, all cuts", "why_tests_cant": "a geometric identity over the reals", "anchors": ["simplegrid/util.py:squad_uarea"]}
{"id": "C64", "title": "areas of a refined grid add up to the area of the original cells", "statement": "On an exact sphere, when the spherical formula is used, every RAC of an mkgrid result is positive and the sum of RAC equals the area of the spherical quadrilateral spanned by the four given corners, whatever the subscales; for regrid it equals the sum of the areas of the original cells (if convex).", "quantifier": "all latitude-longitude boxes off the poles, all subscales; all source grids with convex cells", "why_tests_cant": "couples subdivision, area formula and accumulation over all sizes", "anchors": ["simplegrid/mkgrid.py:mkgrid", "simplegrid/regrid.py:regrid", "simplegrid/computegrid.py:fill", "simplegrid/computegrid.py:tomitgrid"]}
{"id": "C65", "title": "rdmds returns what the tile files hold", "statement": "Reading a field stored in any arrangement of tile files (or in one file), with any choice of iterations (none, one, a list, all on disk, the last on disk), records, levels, region, fill value, memory map and squeezing, returns exactly the elements asked for, in order: the stored number where a tile has it, the fill value elsewhere; the shape, the iteration list and the meta dictionary are the documented ones and no file is changed. File names contain none of the wildcard characters *, ? and [.", "quantifier": "every directory, every arrangement of tiles inside the array, every option in range, all finite and non-finite numbers, both precisions and byte orders", "why_tests_cant": "the product of tile layouts, index options and file layouts is unbounded", "anchors": ["simplegrid/mds.py:rdmds", "simplegrid/mds.py:readmeta"]}
{"id": "C66", "title": "data files of the wrong size", "statement": "A data file with another number of items than its meta file says is refused when everything is read at once; when some records are asked for only these have to be there, and a record that is not wholly there is refused; with a memory map a short file is lengthened on disk with zeros, which are returned as data, and no other file changes. File names contain none of the wildcard characters *, ? and [.", "quantifier": "every file length, every record number, every directory", "why_tests_cant": "side effects on the input files at every length", "anchors": ["simplegrid/mds.py:rdmds"]}
{"id": "C67", "title": "reading a part equals taking a part of the whole", "statement": "rdmds with record, level and region options returns the same elements as indexing the array read without options (as the docstring's examples say), and the same meta data. File names contain none of the wildcard characters *, ? and [.", "quantifier": "every tiled field, every option set inside the array, every directory", "why_tests_cant": "relates two runs of the reader over all options", "anchors": ["simplegrid/mds.py:rdmds"]}
{"id": "C68", "title": "dimensions dropped without squeezing", "statement": "Documented: squeeze=False drops only the dimensions that came from scalar arguments. Actual: leaving rec out drops the record dimension too, so that every file with a number of records other than one raises ValueError. Levels cannot be read from tiles that have only some of them. File names contain none of the wildcard characters *, ? and [.", "quantifier": "every file, every number of records but one", "why_tests_cant": "a failing combination of two options over all record counts", "anchors": ["simplegrid/mds.py:rdmds"]}
{"id": "C69", "title": "the xg/yg file pair", "statement": "With a pair of files regrid gives the same result as with the two matrices they hold: two .csv names are read as text, any other two names as big-endian doubles, column after column, whose number must be (ni+1)(nj+1) (ValueError otherwise; an incomplete last double is ignored). Documented but false: that each file's own name decides; a .csv file beside another one is read as binary.", "quantifier": "all file names and contents, all counts, all other arguments", "why_tests_cant": "relates calls with files of every content to calls with matrices", "anchors": ["simplegrid/regrid.py:regrid"]}
{"id": "C70", "title": "tiles with map2glob", "statement": "Reading tile files of which some have a map2glob entry, with any records and levels but no region, puts element (y, x) of such a tile at place i0 + nx*j0 + y*(m1*nx+m0) + x along the rows of the array and leaves elements that no tile has at the fill value; an entry [0,1] means the same as none. Asking for a region raises as soon as one tile has the entry, changing nothing. File names contain none of the wildcard characters *, ? and [.", "quantifier": "all sets of tile files with and without entries, all sizes, contents, byte orders and options", "why_tests_cant": "placement across row ends and the clamped block start depend on every combination of extents, steps and corners", "anchors": ["simplegrid/mds.py:rdmds", "simplegrid/mds.py:readmeta"]}
{"id": "C71", "title": "copying files through wrmds(**meta)", "statement": "An array written without iteration number, times and fields, read back, and written under another name with the meta data rdmds returned gives byte-identical meta and data files and changes no other file; a field stored in tiles is gathered that way into one file that reads the same. Documented but false: that meta data of any existing file can be passed on; if the file has an iteration number, times or fields the call raises TypeError and writes nothing. File names contain none of the wildcard characters *, ? and [.", "quantifier": "all arrays (NaNs, infinities, every shape), both precisions, both byte orders, all names, all tilings", "why_tests_cant": "a round trip over all contents, with byte equality", "anchors": ["simplegrid/mds.py:wrmds", "simplegrid/mds.py:rdmds"]}
{"id": "C72", "title": "times in meta files", "statement": "Each finite time is written right-aligned in twenty columns as thirteen digits nearest to it with an exponent; read back it has the same sign, is within 10^-12 of it relatively, is the double nearest to those thirteen digits, and is the same if thirteen digits suffice. A file with a time that is not finite, with an empty list of times, or with a negative time of three-digit exponent after another one is written but cannot be read. File names contain none of the wildcard characters *, ? and [.", "quantifier": "all lists of doubles, all other arguments", "why_tests_cant": "decimal rounding of every double, over all lists", "anchors": ["simplegrid/mds.py:wrmds", "simplegrid/mds.py:parsemeta", "simplegrid/mds.py:parse1", "simplegrid/mds.py:rdmds"]}
{"id": "C73", "title": "iteration numbers and times computed from deltat", "statement": "Times without an iteration number give that of the last time divided by deltat, rounded down (up to 2^49 steps); an iteration number without times gives deltat*itr; with both, deltat is ignored; with neither, with no times, or with deltat zero nothing is written. From a step to its time and back is the same step if the product was not rounded down, the step before if it was (so not always the same: step 5 of 0.1); always the same for whole numbers of time units up to 2^53. File names contain none of the wildcard characters *, ? and [. With an infinite time step the iteration number is 0, or -1 if the signs of time and step differ.", "quantifier": "all doubles, all step numbers below 2^49, all other arguments", "why_tests_cant": "floating-point floor division over all operands", "anchors": ["simplegrid/mds.py:wrmds"]}
{"id": "C74", "title": "which command lines are accepted", "statement": "A command line of each of the five programs is accepted exactly if it consists of options followed by or joined to a value of their type, switches and groups of switch letters, with names abbreviated only where unambiguous and every required option present; it can be read in one way only, the last value given for an option counts, values have the type of their option, and the order of the options does not matter when none is repeated.", "quantifier": "all lists of argument strings, for all five programs", "why_tests_cant": "the argument strings are unbounded and interact (abbreviations, values that look like options)", "anchors": ["simplegrid/mkgrid.py:create_parser", "simplegrid/regrid.py:create_parser", "simplegrid/addfringe.py:create_parser", "simplegrid/stitch.py:create_parser", "simplegrid/getobcs.py:create_parser"]}
{"id": "C75", "title": "what an accepted command line runs", "statement": "sgmkgrid, sgregrid, sgaddfringe and sgstitch run the computation with exactly the values given on the line, omitted ones as None, and strict exactly if its switch is given; sgmkgrid with all its options and positive subscales writes the grid of mkgrid() to the file named, which reads back equal. (sgmkgrid with --verbose and a coordinate missing is excluded: it raises TypeError, C92.)", "quantifier": "all accepted lines with non-negative cell counts, all file systems", "why_tests_cant": "joins argument parsing to the results for all values", "anchors": ["simplegrid/mkgrid.py:main", "simplegrid/regrid.py:main", "simplegrid/addfringe.py:main", "simplegrid/stitch.py:main"]}
{"id": "C76", "title": "numbers on the command line", "statement": "A decimal number with or without sign, point and digits after it means the nearest double with its sign, and an integer itself; it can follow its option unless it is negative and ends in its point. A value that looks like an option refuses the whole line wherever it stands. Suggested by the README but false: that the numbers of the Python examples (-128.) can be given as they are.", "quantifier": "all decimal texts of any length, all lines around them", "why_tests_cant": "correct rounding of all decimal texts; refusal for every context", "anchors": ["simplegrid/mkgrid.py:create_parser", "simplegrid/regrid.py:create_parser"]}
{"id": "C77", "title": "refused command lines", "statement": "A line that is not accepted ends with status 2, or with 0 if a help option or a group of letters with an h is on it; no file changes. A line without a required option is refused. A command changes no file but the one named by its --outfile, and that only if it succeeds. sgmkgrid requires no option: an empty line raises TypeError.", "quantifier": "all lists of argument strings, all file systems", "why_tests_cant": "quantifies over all lines and all files", "anchors": ["simplegrid/mkgrid.py:main", "simplegrid/regrid.py:main", "simplegrid/addfringe.py:main", "simplegrid/stitch.py:main"]}
{"id": "C78", "title": "the command line of sggetobcs", "statement": "sggetobcs calls getobcs() with the values given on the line; --resultsdir, documented with a default, must always be given; a successful run was given no OB option or only zeros, and does the same without them.", "quantifier": "all lists of argument strings, all results directories, all interpolators", "why_tests_cant": "relates every successful run to another one", "anchors": ["simplegrid/getobcs.py:main", "simplegrid/getobcs.py:create_parser"]}
{"id": "C79", "title": "the files of an iteration", "statement": "wrmds with iteration z creates exactly the two files of z: the base name, a point, the number in ten characters filled with zeros (the minus sign counted), and .meta or .data; no two numbers share a name and nothing else changes, whether or not it succeeds. rdmds reads only the files of the iterations asked for, so writing one iteration leaves every reading of the others the same. File names contain none of the wildcard characters *, ? and [.", "quantifier": "all iteration numbers, arrays, options and directories", "why_tests_cant": "non-interference between all pairs of iterations; names for unbounded numbers", "anchors": ["simplegrid/mds.py:wrmds", "simplegrid/mds.py:rdmds"]}
{"id": "C80", "title": "a series of iterations written and read back", "statement": "After wrmds was called for any list of iterations, rdmds with a list of them returns their arrays stacked in the order asked for, each as last written and as its precision keeps it, with any of rdmds' selections; NaN returns all iterations from 0 to 9999999999 in ascending order and Inf the last one. False: that NaN finds every written iteration, and that iteration -1 is read back. File names contain none of the wildcard characters *, ? and [.", "quantifier": "all series of arrays of equal shape, all selections, both precisions and byte orders, all prior directories without tiles of the field", "why_tests_cant": "quantifies over histories of writes and over all reads after them", "anchors": ["simplegrid/mds.py:wrmds", "simplegrid/mds.py:rdmds", "simplegrid/mds.py:scanforfiles"]}
{"id": "C81", "title": "what a meta file means", "statement": "parsemeta reads exactly the texts that are meta files by an independent grammar (comments, keys, lists of integers, doubles and strings over any number of lines, lists of strings in braces), returns what they say with the last value of a key given twice, and raises ParseError, IndexError or the error of float() for every other text; comments change nothing. False: that blanks may stand around the commas of a list (refused wherever one stands before a comma), and that everything unparsable raises ParseError or ValueError.", "quantifier": "all texts", "why_tests_cant": "soundness and completeness over all texts of any length", "anchors": ["simplegrid/mds.py:parsemeta", "simplegrid/mds.py:parse1", "simplegrid/mds.py:strip_comments"]}
{"id": "C82", "title": "the numbers in texts", "statement": "int() and float() as modelled accept exactly the texts of an independent grammar (white space, sign, digits with single underscores, point, exponent, inf and nan in any case), float() giving the nearest double with the sign of the text, infinity from 2^1024 on; numbers of equal value give equal doubles, integers written out are read back, and these are the values on the command lines.", "quantifier": "all texts", "why_tests_cant": "correct rounding and exact acceptance for all texts of any length", "anchors": ["simplegrid/mds.py:parse1", "simplegrid/mkgrid.py:create_parser", "simplegrid/regrid.py:create_parser"]}
{"id": "C83", "title": "rounding of Cartesian coordinates", "statement": "For every C library whose sine and cosine are within d of the exact ones for angles up to 7, lonlat2cart in double precision returns finite coordinates, each within 3(d + 2^-49) of the exact ones, for all longitudes and latitudes within 360 degrees; the points are within 6(d + 2^-49) of the unit sphere and of the points meant.", "quantifier": "all doubles within 360, all libraries within the contract", "why_tests_cant": "an error bound over all doubles and all libraries", "anchors": ["simplegrid/util.py:lonlat2cart"]}
{"id": "C84", "title": "rounding of planar areas", "statement": "Where computegrid uses the planar formula, every area entry is finite, not negative and within 4e(s+e)a^2 of the exact area of the quadrilateral meant, where e = 6(d + 2^-49), a is the radius and s bounds the distances of the corners; RAC, RAZ, RAW and RAS are within 17e(s+e)a^2 of the sum over four quarters, none of which is so small that it might be computed as zero.", "quantifier": "all doubles within 360 degrees, all libraries within the contract, all radii from 1 to 2^26, grids of any size", "why_tests_cant": "a floating point error bound over all inputs", "anchors": ["simplegrid/util.py:pquad_uarea", "simplegrid/computegrid.py:areas", "simplegrid/computegrid.py:tomitgrid"]}
{"id": "C85", "title": "planar areas of small cells are nearly spherical", "statement": "For cells whose corners are at most s <= 1/2 apart, the planar area Q and the sum of the two spherical excesses differ by at most s^2 Q/2 + s^6/(4Q), so by at most (k+1)/4 s^4 if Q is at least s^2/k; RAC computed with the planar formula is the area on the sphere up to that and the rounding error.", "quantifier": "all convex quadrilaterals on the sphere; all grids of such cells", "why_tests_cant": "quantifies over all real cells; the bound is an inequality of real analysis", "anchors": ["simplegrid/util.py:pquad_uarea", "simplegrid/util.py:squad_uarea", "simplegrid/computegrid.py:areas"]}
{"id": "C86", "title": "the spherical formula fails on tiny cells", "statement": "For four corners within 2^-23 degrees of longitude and latitude 0, different or not, squad_uarea returns NaN, with every C library that has cosine 1 and sines of at most 2^-28 for angles of at most 2^-28; the RAC of a cell containing such a quarter is NaN where the spherical formula is used, unless another quarter is exactly zero.", "quantifier": "all such corners, all libraries within the contract, all grids", "why_tests_cant": "quantifies over all doubles in the range and all libraries", "anchors": ["simplegrid/util.py:squad_uarea", "simplegrid/computegrid.py:areas"]}
{"id": "C87", "title": "file names with wildcards", "statement": "glob lists exactly the names that match the pattern as the shell reads it. For every file name, with or without wildcards, rdmds with given iterations reads the tiles whose meta files match the name and tile numbers, wherever they lie: the array, its shape and the dictionary are as for tiles under one name, for tiles with and without map2glob. With no match it raises OSError. Two expectations are refuted: a name with a set in brackets, written by wrmds, is not found by rdmds; with a wildcard an iteration may be listed more than once.", "quantifier": "all file names, directories, tilings, options and contents", "why_tests_cant": "quantifies over all patterns and directories", "anchors": ["simplegrid/mds.py:rdmds", "simplegrid/mds.py:scanforfiles", "simplegrid/mds.py:wrmds"]}
{"id": "C88", "title": "meta files that disagree are refused", "statement": "Whenever rdmds succeeds, any two meta files it read for the iterations asked for exist, are well formed, and say the same: every entry other than dimList, timeInterval, timeStepNumber and map2glob is absent from both or has the same values in both (numbers by value, texts letter by letter), and the sizes of the whole array agree. The dictionary returned has keys without capital letters, and an entry of the meta file under a key with no twin in another case is found under the key in small letters. A machineformat other than the six names is refused and no file changes.", "quantifier": "all directories, names, iterations, options and file contents", "why_tests_cant": "quantifies over all contents of all meta files", "anchors": ["simplegrid/mds.py:rdmds", "simplegrid/mds.py:readmeta"]}
{"id": "C89", "title": "records of a written array", "statement": "wrmds with nrecords and without ndims takes as few leading dimensions as make up nrecords, exactly as if the number of the others had been given as ndims, and the array read back has nrecords records of these dimensions with the same contents. A count no leading dimensions make up is refused with IndexError or AssertionError; nrecords equal to the product of all dimensions (one record per element, more than one) is refused with ValueError although the count is right. Unknown byte orders raise KeyError, unknown precisions ValueError. In all these cases no file changes. File names contain none of the wildcard characters *, ? and [.", "quantifier": "all shapes, contents, record counts and other arguments", "why_tests_cant": "quantifies over all shapes and record counts", "anchors": ["simplegrid/mds.py:wrmds", "simplegrid/mds.py:rdmds"]}
{"id": "C90", "title": "element types of arrays read", "statement": "rdmds with astype='float32' ends as it does without, with the same directory, exception, iterations, dictionary and shape; every element is the nearest single (ties to even, infinite from 2^128 on) of what it is without. With astype=None it also ends the same way, and every element is the same, except that the fill value may have been rounded to the nearest single; if the fill value is a single or NaN the results are equal. astype=float is the default.", "quantifier": "all directories, names, iterations, options and file contents", "why_tests_cant": "quantifies over all file contents and options", "anchors": ["simplegrid/mds.py:rdmds"]}
{"id": "C91", "title": "negative cell counts", "statement": "Every accepted command line of the five programs runs; one of sgregrid, sgaddfringe or sgstitch with negative cell counts fails and leaves all files as they were, or does what the line does with some counts that are not negative. A negative count for a named .mitgrid file always makes sgregrid, sgaddfringe, sgstitch and sggetobcs fail. The counts given with a pair of csv files do not matter unless they are 0; with a pair of other files one count below -1 stands for the number the length of the files gives. read_mitgridfile with -1 cells reads any file as one without values, with two counts below -1 raises ValueError; write_mitgridfile with a count below -1 leaves an empty file and raises ValueError.", "quantifier": "all command lines, counts of any sign, file contents and directories", "why_tests_cant": "quantifies over all integers and all file contents", "anchors": ["simplegrid/gridio.py:read_mitgridfile", "simplegrid/gridio.py:write_mitgridfile", "simplegrid/regrid.py:regrid", "simplegrid/addfringe.py:addfringe", "simplegrid/stitch.py:stitch", "simplegrid/getobcs.py:getobcs"]}
{"id": "C92", "title": "verbose output", "statement": "Of the commands sgmkgrid, sgregrid, sgaddfringe and sgstitch: lines that differ only in --verbose leave the same files and end the same way (for sgmkgrid if the four coordinates are given; without one of them -v prints one line and raises TypeError, where the quiet command writes a grid: stated and refuted in general). Without the switch nothing is printed. With it ...done. is printed if and only if the command succeeds, as the last thing, after the name and the cell counts of the file, which then has 128 (ni+1)(nj+1) bytes. Reading a file prints the number of doubles and the names and shapes of its matrices; regrid prints for every quarter turn where the two corners are before and after it (first the nearest points, then where the turns take them) and the counts of the result; matchedges names the edges it returns; mkgrid and regrid show every matrix they return, and before that the points after each subdivision, the half-cell edge lengths and the quarter-cell areas it is made of. Coordinates are printed rounded to the nearest ten thousandth, ties to even, in at least nine places.", "quantifier": "all command lines, file contents, coordinates and geodesic functions", "why_tests_cant": "quantifies over all inputs and command lines", "anchors": ["simplegrid/mkgrid.py:mkgrid", "simplegrid/regrid.py:regrid", "simplegrid/matchedges.py:matchedges", "simplegrid/addfringe.py:main", "simplegrid/stitch.py:main", "simplegrid/gridio.py:read_mitgridfile", "simplegrid/computegrid.py:tomitgrid"]}
{"id": "C93", "title": "verbose output of sggetobcs", "statement": "sggetobcs prints nothing without --verbose, and lines that differ only in it leave the same weight files and boundary files and end the same way. With it, however the run ends, the announcements of the responses come last; they are those of the responses with result files, in the order T, S, Eta, W, U, UICE, V, VICE, all of them if the run succeeds and otherwise the first ones; the boundary files of the responses announced before the one that failed, and only these, have been written, in the size that cells, levels and times make up. The messages before name the source of each grid, the cell counts used, and for a parent grid taken from the results directory each of the sixteen fields as done if and only if it is in the grid. The number of depths printed is the first extent of T, which is wrong for two-dimensional results, and a grid without any field is said to be successfully read: both stated and refuted.", "quantifier": "all command lines, arguments, directories, weight files and endings", "why_tests_cant": "quantifies over all directories and all ways to fail", "anchors": ["simplegrid/getobcs.py:getobcs", "simplegrid/getobcs.py:main", "simplegrid/mds2mitgrid.py:mds2mitgrid"]}
{"id": "C94", "title": "commands one after the other", "statement": "sgmkgrid for one cell followed by sgregrid of the file it wrote, with the same box and p by q pieces, leaves byte for byte the file that sgmkgrid for p by q cells writes, if the two named corners are strictly nearest to themselves. The grids sgmkgrid makes for a box and for the box east of it (same number of rows; either both boxes or neither touch negative longitudes) or north of it (same number of columns) have the same entries on the common line in all sixteen fields; sgstitch of the two files, if the corner tests find the boxes close at the common corners only and no entry off a boundary is zero, succeeds, writes the same bytes whichever tile comes first, and the file holds both grids, each in its place.", "quantifier": "all boxes, subdivisions, file names, directories and geodesic functions", "why_tests_cant": "quantifies over all boxes and all pairs of neighbours", "anchors": ["simplegrid/mkgrid.py:main", "simplegrid/regrid.py:main", "simplegrid/stitch.py:main", "simplegrid/computegrid.py:fill"]}
{"id": "C95", "title": "what rdmds returns and reports, and what wrmds warns of", "statement": "With verbose, rdmds changes no result, file or exception. With returnmeta it returns the array, the iterations and the dictionary; without, always the array alone, although its description promises the iterations too when all or the last are asked for. The reports are: when files are looked for, how many iterations are on disk and all of them in ascending order, or the highest; then, for one iteration after the other as far as the reading gets, the first of its meta files in the order of the directory. If the last iteration is asked for and there is none, the report says so and the array is empty. wrmds warns if and only if its arguments pass the checks: of folding exactly when more than one dimension goes into the records (without further arguments: from five dimensions on), and of a deltat exactly when iteration and times are given too.", "quantifier": "all directories, names without wildcards for the iterations on disk, options and arguments of both functions", "why_tests_cant": "The reports go to stderr, which no test looks at; the pair promised by the description only shows when unpacked.", "anchors": ["simplegrid/mds.py:rdmds", "simplegrid/mds.py:wrmds", "simplegrid/mds.py:warning"]}
{"id": "C96", "title": "stitched tiles stitched again", "statement": "addfringe replaces each zero of the first tile by the value computed from its corner points (zero at its boundary) and keeps everything else. So a tile stitched, written and used as the first tile of another stitch has its seam, which the first stitch left zero, computed; used as the second tile it keeps the zeros. Three tiles in a row in any of the four directions, filled and with zeros on their boundaries, give the same grid stitched from either end, except for the entries straddling the line between the first two: computed if these were stitched first, zero if stitched last. The entries straddling the other line are zero both ways.", "quantifier": "all tiles, sides, file contents and geodesic functions", "why_tests_cant": "quantifies over all tiles and both orders of stitching", "anchors": ["simplegrid/addfringe.py:addfringe", "simplegrid/stitch.py:stitch"]}
{"id": "C97", "title": "mkgrid and regrid cut sides evenly in doubles", "statement": "If the geodesic library measures distances to within e between usable points and cuts a line into pieces equal to within e, then in double precision every old cell side along i is cut into lon_subscale DXG entries that are finite, positive and within 4e and one rounding of an equal share, and likewise every line along j between two old rows into lat_subscale DYG entries; their sums are within that many times the error of the whole side. Each entry of the eight edge-length fields inside a grid of any points is within 2e and one rounding of the way between its points over the one between them.", "quantifier": "for every mathematical and geodesic library, distance and error bound meeting the hypothesis, every box, tile and subscale", "why_tests_cant": "Tests compare one grid with stored values; how the error of the library carries over to every edge at every refinement is a statement about all of them.", "anchors": ["simplegrid/computegrid.py:fill", "simplegrid/computegrid.py:edges", "simplegrid/computegrid.py:tomitgrid", "simplegrid/mkgrid.py:mkgrid", "simplegrid/regrid.py:regrid"]}
{"id": "C98", "title": "nearest and regrid choose the right corners in true distances", "statement": "If the geodesic library measures the distances from a point to a tile's corners to within e, nearest returns a corner that is farther than no other by more than 2e together with its distance to within e; a corner nearer than all others by more than 2e is the one returned in whatever order the arrays are visited; and regrid asked for two points, each plainly nearest to a corner in this sense and these in different rows and columns, succeeds and returns a piece with the first corner at its north-west and the second at its south-east end. Without the margin a farther corner can be returned.", "quantifier": "for every mathematical and geodesic library, true distance, error bound, tile, memory layout and pair of requested points", "why_tests_cant": "Tests ask for points on or very near corners of one tile; the margin by which a request may miss a corner is a statement about all tiles, requests and library errors.", "anchors": ["simplegrid/util.py:nearest", "simplegrid/regrid.py:regrid"]}
{"id": "C99", "title": "text files of coordinates", "statement": "Every xg/yg text file is a sequence of lines with cells and comments. If every line that has cells has equally many and all are numbers, regrid reads the array with one row per such line and one column per cell, in that order, regardless of comments, blank lines, kind and presence of line ends and blanks around numbers; a pair of such files with two or more rows and columns is used exactly like the two arrays in memory, whatever cell counts are given; every other pair of text files is refused with ValueError.", "quantifier": "for every file content, every pair of files, all other arguments", "why_tests_cant": "Tests read one pair of well-formed files; which of all possible texts are accepted and how each is read needs a statement about all of them.", "anchors": ["simplegrid/regrid.py:regrid"]}
{"id": "C100", "title": "grids that close on themselves", "statement": "Let no corner point be measured closer to the last point of the first column of a grid than its first point (a grid once around the globe, or with a pole there), and the northwest corner be among the points closest to itself. Then regrid of the whole grid, named by its own corners, raises ValueError in both memory layouts of numpy, and getobcs with such a parent or regional grid fails and changes no file. The whole of a grid whose two corners are closer to themselves than to any other point is refined.", "quantifier": "all grids, distance measurements, both memory layouts, subscale factors and directories", "why_tests_cant": "tests use small open regions; the failure comes from a tie in a search whose winner depends on the visiting order", "anchors": ["simplegrid/regrid.py:regrid", "simplegrid/util.py:nearest", "simplegrid/getobcs.py:getobcs"]}
{"id": "C101", "title": "the parent grid from the results directory", "statement": "If getobcs is given neither a parent grid file nor parent matrices it takes the parent grid from the results directory by mds2mitgrid. It then fails for every directory, regional grid and library, and changes no file: mds2mitgrid pads XG and YG with zeros, the two corners getobcs hands to regrid are padding, and regrid never refines between a point and itself. The same holds if that grid is written to a file and the file named, and for any grid two opposite corners of which coincide.", "quantifier": "all directories, arguments, regional grids, interpolation and geodesic libraries", "why_tests_cant": "no test calls getobcs this way; that no input at all works is a statement about every input", "anchors": ["simplegrid/getobcs.py:getobcs", "simplegrid/mds2mitgrid.py:mds2mitgrid", "simplegrid/regrid.py:regrid"]}
{"id": "C102", "title": "what is interpolated, from where and to where", "statement": "When getobcs succeeds in setting up its three interpolations on grids whose corners regrid finds, each goes from the parent's points of its kind to the region's: tracer points are XC and YC; U points are the middles of the geodesics from corner (i,j) to (i,j+1); V points those from (i,j) to (i+1,j). The weights are those the library computes from exactly these four matrices unless the weight file of these extents existed before the run. What is interpolated is the result field at the depth in question: tracer fields must have exactly the parent's extents; U and V fields are extended by zeros to the parent's U and V points, and larger ones are refused. MITgcm writes one velocity per cell, so the parent's easternmost U and northernmost V points always enter as zero.", "quantifier": "all pairs of grids of any size, all fields, depths, geodesic and interpolation libraries, and contents of the weight directory", "why_tests_cant": "there is no test of getobcs; one could show the matrices handed to the library for a few grids, not for all sizes and corner positions", "anchors": ["simplegrid/getobcs.py:getobcs", "simplegrid/getobcs.py:weightfilename", "simplegrid/regrid.py:regrid"]}
{"id": "C103", "title": "when getobcs succeeds, and every number it writes", "statement": "On a parent and a regional grid with centres and corners whose own opposite corners regrid finds, with default boundaries and an interpolation library that never fails, getobcs succeeds exactly if there is at least one T result, and every result present can be read at every time step and has the parent's extents at each depth of the first time step. With no weight files there beforehand, each number of each boundary file is then the value the library gives, at the documented point of that side, with the weights of the parent's and the region's points of that kind, for the result field of that time and depth.", "quantifier": "all grids, result directories, numbers of times and depths, geodesic and interpolation libraries", "why_tests_cant": "there is no test of getobcs; success for all inputs of a class and the meaning of every number written are not observable by running some of them", "anchors": ["simplegrid/getobcs.py:getobcs"]}
{"id": "C104", "title": "orientation of the grid given to regrid", "statement": "With both points asked for closer to one grid point than to any other, and in different rows and columns: matrices given turned by any number of quarter turns give the same grid bit for bit. Matrices given with rows and columns exchanged give a grid whose first axis has the other axis's cell count and which is the mirror image: its corner (x,y) in steps of the subscales is the corner (n-y,m-x) of the other. The two points asked for are the north-west and south-east corners either way; north-east and south-west are exchanged.", "quantifier": "all matrices of any size, corner positions, subscales, geodesic libraries and array layouts", "why_tests_cant": "tests use one orientation of one grid; equality for all four orientations and every input, and the mirror image for every transposed one, are claims about all pairs of inputs", "anchors": ["simplegrid/regrid.py:regrid"]}
{"id": "C105", "title": "the dictionaries given to getobcs", "statement": "getobcs hands the caller's dictionaries to regrid, which replaces XG and YG by rotated ones. After any run of getobcs, successful or not, each dictionary of the caller is as before, or it was given to getobcs and exactly its XG and YG are turned, both by the same number of quarter turns; after a successful run by exactly the number that brings the points found for its own corners to the north-west and south-east. If the parent and the regional grid are not one and the same dictionary, the turning has no effect on the weight files, the files written or the outcome. If regrid finds the own opposite corners of the grids given, nothing is turned, and one dictionary may serve for both grids.", "quantifier": "all dictionaries of the caller, shared or not, all other arguments, results, libraries and outcomes", "why_tests_cant": "there is no test of getobcs; effects on the caller's objects, for every run including the failing ones and for shared dictionaries, are not seen by comparing output files", "anchors": ["simplegrid/getobcs.py:getobcs", "simplegrid/regrid.py:regrid"]}
