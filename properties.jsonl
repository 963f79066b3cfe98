{"id": "C01", "title": "Horizontal inversion mirrors every row", "statement": "After invert_samples(image, samples, lines) the pixel at line k, sample i holds the value previously at line k, sample samples-1-i; the number of pixels is unchanged and nothing else is altered.", "quantifier": "for every image, every number of samples and lines whose product is the image size, every pixel", "why_tests_cant": "Tests fix a handful of concrete sizes and values; the claim ranges over all image sizes (odd, even, degenerate) and all contents.", "anchors": ["lib/marc/utility.h: MaRC::invert_samples"]}
{"id": "C02", "title": "Vertical inversion mirrors every column", "statement": "After invert_lines(image, samples, lines) the pixel at line k, sample i holds the value previously at line lines-1-k, sample i; the number of pixels is unchanged; for an odd number of lines the middle line is untouched.", "quantifier": "for every image, every number of samples and lines whose product is the image size, every pixel", "why_tests_cant": "Tests fix a handful of concrete sizes and values; the claim ranges over all image sizes and all contents.", "anchors": ["lib/marc/utility.h: MaRC::invert_lines"]}
{"id": "C03", "title": "Inversions are involutions, commute, and together reverse the image", "statement": "Applying either inversion twice restores the image; doing horizontal then vertical equals vertical then horizontal; INVERT: BOTH yields the pixel sequence in reverse order.", "quantifier": "for every image and matching dimensions", "why_tests_cant": "Tests fix a handful of concrete sizes and values; the claim ranges over all images; the law relates two executions.", "anchors": ["lib/marc/utility.h: MaRC::invert_samples, MaRC::invert_lines", "src/PhotoImageFactory.cpp: PhotoImageFactory::make"]}
{"id": "C04", "title": "Inversion rejects a mismatched size and never touches memory outside the image", "statement": "If the image size differs from samples*lines an invalid_argument is thrown and the image is left unchanged; otherwise no element outside the image is accessed.", "quantifier": "for every image size, samples and lines representable in size_t", "why_tests_cant": "Overflowing products of two 64-bit dimensions cannot be enumerated by tests.", "anchors": ["lib/marc/utility.h: MaRC::invert_samples, MaRC::invert_lines"]}
{"id": "C05", "title": "Extrema track exactly the least and greatest datum seen", "statement": "After any sequence of non-NaN data is fed to extrema::update the reported minimum is the least and the maximum the greatest datum of the sequence; both are unset exactly when no datum was fed; the result does not depend on the order of the data.", "quantifier": "for every history of updates of every length", "why_tests_cant": "Tests fix a handful of concrete sizes and values; the claim ranges over all histories of updates.", "anchors": ["lib/marc/extrema.h: extrema::update(T)"]}
{"id": "C06", "title": "Range test means lower bound <= value <= upper bound", "statement": "extrema::in_range(v) holds exactly when both extrema's bounds admit v; NaN is never in range; with no maximum set nothing is in range; is_valid holds exactly when both are set and minimum <= maximum.", "quantifier": "for every extrema state and every double value including NaN and infinities", "why_tests_cant": "Tests fix a handful of concrete sizes and values; the claim ranges over all doubles and all optional states.", "anchors": ["lib/marc/extrema.h: extrema::in_range, extrema::is_valid"]}
{"id": "C07", "title": "Merging extrema yields the combined range", "statement": "After a.update(b) the minimum of a is the lesser of the set minima and the maximum is the greater of the set maxima, an unset extremum of either operand counting as no constraint.", "quantifier": "for every pair of extrema states", "why_tests_cant": "Tests fix a handful of concrete sizes and values; the claim ranges over all pairs of optional bounds.", "anchors": ["lib/marc/extrema.h: extrema::update(extrema const &)", "src/MosaicImageFactory.cpp: MosaicImageFactory::make"]}
{"id": "C08", "title": "NaN data never contaminate extrema", "statement": "Feeding NaN to extrema::update does not change what the non-NaN data in the same history determine.", "quantifier": "for every history of updates mixing NaN and ordinary values", "why_tests_cant": "Tests fix a handful of concrete sizes and values; the claim ranges over all histories and all positions of a NaN.", "anchors": ["lib/marc/extrema.h: extrema::update(T)"]}
{"id": "C09", "title": "Extrema construction rejects NaN and crossed bounds, and clips to the map type", "statement": "Constructing extrema<T> from (lo, hi) throws invalid_argument if either is NaN or if lo > hi after clipping; otherwise bounds are set, lie in T's range, and are never produced by an undefined conversion.", "quantifier": "for every map data type and every pair of doubles", "why_tests_cant": "Tests fix a handful of concrete sizes and values; the claim ranges over all doubles, including those whose conversion to T overflows.", "anchors": ["lib/marc/extrema.h: extrema::extrema(U,U), minimum(U), maximum(U)", "lib/marc/Map_traits.h: Map_traits::minimum, Map_traits::maximum"]}
{"id": "C10", "title": "A map contains exactly the readable in-range data, blank elsewhere", "statement": "The map returned by make_map has samples*lines cells; a cell that the projection plotted with readable datum d inside the limits holds d converted to the map type; every other cell holds the blank value.", "quantifier": "for every source image, every limits, every map type, every sequence of plotted points with distinct offsets", "why_tests_cant": "Tests fix a handful of concrete sizes and values; the claim ranges over all source images and all projections.", "anchors": ["lib/marc/MapFactory_t.cpp: MapFactory::make_map, MapFactory::plot"]}
{"id": "C11", "title": "Storing a datum in the map never performs an undefined conversion", "statement": "Whatever the source image yields, the double-to-map-type conversion in plotting is defined (the truncated value is representable).", "quantifier": "for every datum (any double) and every limits object, for every supported map data type", "why_tests_cant": "Tests fix a handful of concrete sizes and values; the claim ranges over all 2^64 doubles per type.", "anchors": ["lib/marc/MapFactory_t.cpp: MapFactory::plot, parameters::get_extrema", "lib/marc/Map_traits.h"]}
{"id": "C12", "title": "DATA_MIN/DATA_MAX select exactly the data between the limits", "statement": "Data greater than or equal to DATA_MIN and less than or equal to DATA_MAX are mapped and all other data are not (input manual, Beginning a Plane).", "quantifier": "for every datum, every DATA_MIN <= DATA_MAX and every map data type", "why_tests_cant": "Tests fix a handful of concrete sizes and values; the claim ranges over all datum/limit combinations, including fractional limits on integer maps.", "anchors": ["lib/marc/MapFactory_t.cpp: MapFactory::plot", "lib/marc/Map_traits.h", "doc/MaRC_input.texi: Beginning a Plane"]}
{"id": "C13", "title": "Reported DATAMIN and DATAMAX are the extremes of the plotted data", "statement": "After make_map on a fresh plot_info, minimum()/maximum() are the least/greatest value actually stored by plotting, and data_mapped() is true exactly when something was stored.", "quantifier": "for every source image, limits and projection", "why_tests_cant": "Tests fix a handful of concrete sizes and values; the claim ranges over all images.", "anchors": ["lib/marc/plot_info.h: plot_info", "lib/marc/MapFactory_t.cpp: MapFactory::plot"]}
{"id": "C14", "title": "Blank value handling", "statement": "For integer maps a user blank that fits the type is the value of every unmapped cell and one that does not fit is rejected with invalid_argument before plotting; without it the blank is 0; floating-point maps always use NaN, and a floating-point map cell is NaN exactly when it was not mapped.", "quantifier": "for every blank value, map type and source image", "why_tests_cant": "Tests fix a handful of concrete sizes and values; the claim ranges over all blanks and images.", "anchors": ["lib/marc/MapFactory_t.cpp: MapFactory::make_map", "lib/marc/plot_info.h"]}
{"id": "C15", "title": "Progress observers see a monotone count that ends at the map size and is reset for the next map", "statement": "During one map each observer receives plot counts 1,2,...,n (one per attempted point) and finally map_size, every count is between 1 and map_size, and after completion the count restarts from 1 for the next map.", "quantifier": "for every number of observers, every map size and every number of plotted points not above the map size, for any sequence of maps", "why_tests_cant": "Tests fix a handful of concrete sizes and values; the claim ranges over all histories of notifications.", "anchors": ["lib/marc/Notifier.cpp: Notifier::notify_plotted, notify_done", "lib/marc/Observer.h: Observer::notify"]}
{"id": "C16", "title": "'No data mapped' is reported for each plane without data", "statement": "When several planes are written to one map the per-plane warning is issued for every plane in which no datum was stored, whatever was stored in the earlier planes.", "quantifier": "for every list of planes", "why_tests_cant": "Tests fix a handful of concrete sizes and values; the claim ranges over all histories of planes sharing one plot_info.", "anchors": ["src/MapCommand_t.cpp: MapCommand::make_map_planes", "lib/marc/plot_info.h: data_mapped"]}
{"id": "C17", "title": "AVERAGING: NONE takes the first contributing image", "statement": "first_read returns the datum of the earliest image in the list that has data at the point, ignoring later ones, and reports no data exactly when no image has data.", "quantifier": "for every list of images and every point", "why_tests_cant": "Tests fix a handful of concrete sizes and values; the claim ranges over all lists of images and coverage patterns.", "anchors": ["lib/marc/first_read.cpp: first_read::composite", "lib/marc/MosaicImage.cpp: MosaicImage::read_data"]}
{"id": "C18", "title": "AVERAGING: UNWEIGHTED is the arithmetic mean of the contributing data", "statement": "With two or more contributors the composite is their arithmetic mean; it lies between the least and greatest contribution, does not depend on the order of images and ignores images without data; the returned count is the number of contributors.", "quantifier": "for every list of images", "why_tests_cant": "Tests fix a handful of concrete sizes and values; the claim ranges over all numbers of images and values.", "anchors": ["lib/marc/unweighted_average.cpp: unweighted_average::composite"]}
{"id": "C19", "title": "AVERAGING: WEIGHTED is the weighted mean of the contributing data", "statement": "With two or more contributors and positive total weight the composite is sum(w*d)/sum(w); with non-negative weights it lies between the least and greatest contribution.", "quantifier": "for every list of images and every assignment of weights", "why_tests_cant": "Tests fix a handful of concrete sizes and values; the claim ranges over all images and weights.", "anchors": ["lib/marc/weighted_average.cpp: weighted_average::composite"]}
{"id": "C20", "title": "A single contributor is copied unchanged", "statement": "If exactly one image of a mosaic has data at a point, the composite is exactly that datum under every averaging method.", "quantifier": "for every list of images with one contributor at any position", "why_tests_cant": "Depends on the position of the contributor relative to images that fail after partial work.", "anchors": ["lib/marc/unweighted_average.cpp", "lib/marc/weighted_average.cpp", "lib/marc/PhotoImage.cpp: PhotoImage::read_data"]}
{"id": "C21", "title": "A source image answer depends only on the point, not on the caller's variable", "statement": "read_data(lat, lon, data) gives the same success flag and value whatever data contained before the call.", "quantifier": "for every photo image, point and prior content of the output variable", "why_tests_cant": "Tests fix a handful of concrete sizes and values; the claim ranges over all prior states, in particular those left by other images of a mosaic.", "anchors": ["lib/marc/PhotoImage.cpp: PhotoImage::read_data", "lib/marc/MosaicImage.cpp"]}
{"id": "C22", "title": "Only pixels inside the nibbled window of the image are ever read", "statement": "A successful or failed read of a photo image accesses pixel and mask storage only at line/sample positions inside the image, and a successful read used a pixel at least nibble_left/right/top/bottom pixels away from the respective edge.", "quantifier": "for every image, nibble values accepted at construction, and every pixel position the geometry may produce", "why_tests_cant": "Tests fix a handful of concrete sizes and values; the claim ranges over all sizes and nibble values, including unsigned wrap-around.", "anchors": ["lib/marc/PhotoImage.cpp: PhotoImage::PhotoImage, read_data", "lib/marc/PhotoImageParameters.cpp: validate_parameters"]}
{"id": "C23", "title": "A successful photo read never yields NaN", "statement": "If PhotoImage::read_data reports success the datum is not NaN, the point was visible and projected to non-negative pixel coordinates.", "quantifier": "for every image content, strategy and point", "why_tests_cant": "Tests fix a handful of concrete sizes and values; the claim ranges over all image contents.", "anchors": ["lib/marc/PhotoImage.cpp: PhotoImage::read_data"]}
{"id": "C24", "title": "Averaging weight is the distance to the nearest image edge or sky pixel", "statement": "The weight given to a pixel in weighted averaging is the shortest distance, along its line and sample, to the edge of the image or (with sky removal) to a sky pixel; hence body pixels away from edges and sky have positive weight.", "quantifier": "for every image size, mask and pixel inside the window", "why_tests_cant": "Tests fix a handful of concrete sizes and values; the claim ranges over all masks.", "anchors": ["lib/marc/PhotoImage.cpp: data_weight, scan_samples, scan_lines"]}
{"id": "C25", "title": "Nibble validation accepts exactly the nibbles that leave pixels", "statement": "validate_parameters(samples, lines) throws invalid_argument exactly when left+right nibble >= samples or top+bottom nibble >= lines.", "quantifier": "for every four nibble values and dimensions in size_t", "why_tests_cant": "Tests fix a handful of concrete sizes and values; the claim ranges over all size_t values, including wrap-around.", "anchors": ["lib/marc/PhotoImageParameters.cpp: validate_parameters"]}
{"id": "C26", "title": "Interpolation stays inside the window, ignores NaN pixels and preserves constant images", "statement": "Interpolation succeeds only if the 2x2 neighbourhood lies in the nibbled window, reads only those four pixels, never uses a NaN pixel, fails when no usable pair exists, and on a neighbourhood with a single common value returns that value.", "quantifier": "for every image, window and position", "why_tests_cant": "Tests fix a handful of concrete sizes and values; the claim ranges over all images and positions.", "anchors": ["lib/marc/BilinearInterpolation.cpp: BilinearInterpolation::interpolate"]}
{"id": "C27", "title": "Interpolated values lie between the surrounding pixels and agree with them at pixel positions", "statement": "Bilinear interpolation returns a value between the minimum and maximum of the four surrounding pixels, and at an exact pixel position returns that pixel (input manual, Interpolation).", "quantifier": "for every four pixel values and every fractional position", "why_tests_cant": "Tests fix a handful of concrete sizes and values; the claim ranges over all values and positions.", "anchors": ["lib/marc/BilinearInterpolation.cpp: BilinearInterpolation::interpolate", "doc/MaRC_input.texi: Interpolation"]}
{"id": "C28", "title": "Flat-fielding subtracts pixel by pixel or fails", "statement": "With a flat field of the same size each image pixel becomes pixel minus flat pixel; with a different size an error is raised; inversion is applied to the result as requested.", "quantifier": "for every image and flat-field content and size", "why_tests_cant": "Tests fix a handful of concrete sizes and values; the claim ranges over all images.", "anchors": ["src/PhotoImageFactory.cpp: PhotoImageFactory::make, flat_field"]}
{"id": "C29", "title": "quadratic_roots returns the real roots exactly when they exist", "statement": "For a != 0 quadratic_roots returns false exactly when the discriminant is negative; otherwise both reported values satisfy the equation, and they are all the real solutions.", "quantifier": "for every real a, b, c with a != 0", "why_tests_cant": "Tests fix a handful of concrete sizes and values; the claim ranges over all coefficients including the degenerate b = c = 0.", "anchors": ["lib/marc/Mathematics.h: quadratic_roots"]}
{"id": "C30", "title": "Approximate comparison and sign functions behave as documented", "statement": "almost_equal is symmetric and holds for identical finite numbers; almost_zero is even in x and monotone in n; signum and sgn return the documented values, differing only at zero.", "quantifier": "for every number", "why_tests_cant": "Tests fix a handful of concrete sizes and values; the claim ranges over all numbers.", "anchors": ["lib/marc/Mathematics.h: almost_equal, almost_zero, signum, sgn"]}
{"id": "C31", "title": "Bracketed root finding returns a point of the bracket or reports failure", "statement": "root_find(y, xl, xh, f) throws invalid_argument if y is not bracketed; any value it returns lies in the bracket; at every iteration the bracket still encloses a crossing of y; it performs at most 100 refinement steps and then throws.", "quantifier": "for every function f, target y and bracket", "why_tests_cant": "Tests fix a handful of concrete sizes and values; the claim ranges over all functions f.", "anchors": ["lib/marc/root_find.cpp: MaRC::root_find(double,double,double,...)"]}
{"id": "C32", "title": "Angle validation accepts exactly the documented ranges", "statement": "Latitudes in [-90,90], longitudes and position angles in [-360,360] degrees are accepted and returned in radians; anything else including NaN is rejected with invalid_argument.", "quantifier": "for every number and NaN", "why_tests_cant": "Tests fix a handful of concrete sizes and values; the claim ranges over all doubles.", "anchors": ["lib/marc/Validate.h: validate_latitude, validate_longitude, validate_position_angle"]}
{"id": "C33", "title": "Vector and matrix arithmetic obeys linear algebra", "statement": "Matrix-vector and matrix-matrix products, sums, transposes, dot products satisfy the textbook index formulas; (AB)v = A(Bv), (AB)^T = B^T A^T; at() throws out_of_range exactly for indices outside the dimensions.", "quantifier": "for every matrix/vector of every dimension", "why_tests_cant": "Tests fix a handful of concrete sizes and values; the claim ranges over all dimensions and entries.", "anchors": ["lib/marc/Vector.h", "lib/marc/Matrix.h"]}
{"id": "C34", "title": "Rotations are orthonormal and agree in vector and matrix form", "statement": "RotX/RotY/RotZ preserve lengths and dot products, are undone by the negated angle, and equal multiplication by RotXMatrix/RotYMatrix/RotZMatrix, whose transposes are their inverses.", "quantifier": "for every angle and vector", "why_tests_cant": "Tests fix a handful of concrete sizes and values; the claim ranges over all angles and vectors.", "anchors": ["lib/marc/Geometry.cpp: RotX, RotY, RotZ, RotXMatrix, RotYMatrix, RotZMatrix"]}
{"id": "C35", "title": "Body radii are validated", "statement": "An oblate spheroid is created exactly for radii that are positive numbers with equatorial >= polar; otherwise an exception is thrown.", "quantifier": "for every pair of doubles including NaN", "why_tests_cant": "Tests fix a handful of concrete sizes and values; the claim ranges over all doubles.", "anchors": ["lib/marc/OblateSpheroid.cpp: OblateSpheroid::OblateSpheroid, validate_radius"]}
{"id": "C36", "title": "Planetocentric and planetographic latitude conversions are inverse and keep order and hemisphere", "statement": "centric_latitude(graphic_latitude(x)) = x and conversely for latitudes strictly between the poles; both fix the equator, are odd, strictly increasing, and |centric| <= |graphic|.", "quantifier": "for every spheroid and every latitude strictly between the poles", "why_tests_cant": "Tests fix a handful of concrete sizes and values; the claim ranges over all spheroids and latitudes.", "anchors": ["lib/marc/OblateSpheroid.cpp: centric_latitude, graphic_latitude"]}
{"id": "C37", "title": "The centric radius is a point of the ellipsoid between the two radii", "statement": "centric_radius(lat) is the distance from the centre to the spheroid's surface in that direction; it lies between the polar and equatorial radius and equals them at pole and equator.", "quantifier": "for every spheroid and latitude", "why_tests_cant": "Tests fix a handful of concrete sizes and values; the claim ranges over all spheroids and latitudes.", "anchors": ["lib/marc/OblateSpheroid.cpp: centric_radius"]}
{"id": "C38", "title": "Emission, incidence and phase cosines are cosines of the documented angles", "statement": "mu, mu0 and cos_phase equal the dot product of the unit surface normal / direction to observer / direction to sun they document, hence lie in [-1,1].", "quantifier": "for every spheroid, observer, sun and surface point (observer not on the surface point)", "why_tests_cant": "Tests fix a handful of concrete sizes and values; the claim ranges over all geometries.", "anchors": ["lib/marc/OblateSpheroid.cpp: mu, mu0, cos_phase"]}
{"id": "C39", "title": "Line of sight intersection returns the nearest surface point or a miss", "statement": "When ellipse_intersection reports success the returned latitude/longitude is a point common to the line of sight and the spheroid, and of the two intersections the one nearer to the observer; a miss is reported exactly when the line does not meet the spheroid.", "quantifier": "for every spheroid, observer position outside the body and viewing direction", "why_tests_cant": "Tests fix a handful of concrete sizes and values; the claim ranges over all positions and directions.", "anchors": ["lib/marc/OblateSpheroid.cpp: ellipse_intersection", "lib/marc/Mathematics.h: quadratic_roots"]}
{"id": "C40", "title": "Radii of curvature are positive and coincide at the pole", "statement": "M(lat) and N(lat) are positive, both equal eq^2/pol at the pole, and M(lat) <= N(lat).", "quantifier": "for every spheroid and latitude", "why_tests_cant": "Tests fix a handful of concrete sizes and values; the claim ranges over all spheroids and latitudes.", "anchors": ["lib/marc/OblateSpheroid.cpp: M, N"]}
{"id": "C41", "title": "Viewing geometry setters reject invalid values", "statement": "Each setter (angles, range, scale, focal length, resolution, emission angle limit, centers) stores a value only if it is a number in its documented domain and otherwise throws, leaving the object unchanged.", "quantifier": "for every double including NaN and infinities", "why_tests_cant": "Tests fix a handful of concrete sizes and values; the claim ranges over all doubles.", "anchors": ["lib/marc/ViewingGeometry.cpp: setters"]}
{"id": "C42", "title": "Points beyond the emission angle limit or terminator are never used", "statement": "A point is visible exactly when its emission cosine exceeds the limit's cosine and, if the terminator option is on, its incidence cosine is positive; latlon2pix fails for every non-visible point.", "quantifier": "for every geometry and point", "why_tests_cant": "Tests fix a handful of concrete sizes and values; the claim ranges over all geometries.", "anchors": ["lib/marc/ViewingGeometry.cpp: is_visible, latlon2pix"]}
{"id": "C43", "title": "Pixel and latitude/longitude conversions of a view are mutually inverse", "statement": "For a visible point, pix2latlon(latlon2pix(lat, lon)) gives back lat and lon (mod 360 degrees), for prograde and retrograde bodies.", "quantifier": "for every body, view and visible point", "why_tests_cant": "Tests fix a handful of concrete sizes and values; the claim ranges over all views and points.", "anchors": ["lib/marc/ViewingGeometry.cpp: latlon2pix, pix2latlon"]}
{"id": "C44", "title": "Galileo lens correction and its inverse cancel", "statement": "object_to_image followed by image_to_object (and vice versa) restores the coordinates, in full-frame and summation mode; the optical axis is fixed and distances from it grow.", "quantifier": "for every image position", "why_tests_cant": "Tests fix a handful of concrete sizes and values; the claim ranges over all positions.", "anchors": ["lib/marc/GLLGeometricCorrection.cpp: image_to_object, object_to_image"]}
{"id": "C45", "title": "The sky mask marks exactly the pixels whose line of sight hits the body", "statement": "body_mask(samples, lines) has samples*lines entries and entry (k,i) is true exactly when pix2latlon succeeds at sample i, line k.", "quantifier": "for every geometry and image size", "why_tests_cant": "Tests fix a handful of concrete sizes and values; the claim ranges over all sizes.", "anchors": ["lib/marc/ViewingGeometry.cpp: body_mask"]}
{"id": "C46", "title": "Simple cylindrical maps plot every cell exactly once", "statement": "plot_map calls the plotting function once for each offset 0..samples*lines-1, in increasing order.", "quantifier": "for every map size", "why_tests_cant": "Tests fix a handful of concrete sizes and values; the claim ranges over all sizes.", "anchors": ["lib/marc/SimpleCylindrical.cpp: plot_map"]}
{"id": "C47", "title": "Simple cylindrical cells carry uniformly spaced latitudes and longitudes inside the requested range", "statement": "Cell (k,i) is plotted at latitude lo+(k+1/2)(hi-lo)/lines and longitude hi-(i+1/2)d (prograde) or lo+(i+1/2)d (retrograde) with d=(hi-lo)/samples; all are strictly inside the range.", "quantifier": "for every latitude/longitude range, body and map size", "why_tests_cant": "Tests fix a handful of concrete sizes and values; the claim ranges over all ranges and sizes.", "anchors": ["lib/marc/SimpleCylindrical.cpp: plot_map", "lib/marc/SimpleCylindrical.h: get_longitude"]}
{"id": "C48", "title": "A simple cylindrical longitude range is non-empty and at most a full circle", "statement": "After construction the mapped longitude interval has positive width not exceeding 360 degrees and the same end points modulo 360 as requested.", "quantifier": "for every pair of accepted longitudes", "why_tests_cant": "Tests fix a handful of concrete sizes and values; the claim ranges over all pairs.", "anchors": ["lib/marc/SimpleCylindrical.cpp: SimpleCylindrical::SimpleCylindrical"]}
{"id": "C49", "title": "Grids are drawn inside the map with values 0 and 255 only, and drawing terminates", "statement": "make_grid with positive intervals returns samples*lines cells each 0 or 255, no cell outside the grid is written, whole rows/columns are drawn at the nearest line/sample of each multiple of the interval in range, and the call terminates.", "quantifier": "for every size, interval and range", "why_tests_cant": "Tests fix a handful of concrete sizes and values; the claim ranges over all sizes and intervals.", "anchors": ["lib/marc/MapFactory.cpp: make_grid", "lib/marc/SimpleCylindrical.cpp: plot_grid", "lib/marc/Mercator.cpp: plot_grid"]}
{"id": "C50", "title": "Mercator maps plot every cell once, conformally and symmetric about the equator", "statement": "plot_map plots each offset once in order; the forward Mercator function is odd and strictly increasing; each plotted graphic latitude is the preimage of the line's ordinate; longitudes cover one full circle.", "quantifier": "for every body and map size", "why_tests_cant": "Tests fix a handful of concrete sizes and values; the claim ranges over all bodies and sizes.", "anchors": ["lib/marc/Mercator.cpp: mercator_x, plot_map, get_longitude"]}
{"id": "C51", "title": "Polar stereographic maps put the pole at the center and stay inside the map", "statement": "Every offset is plotted at most once and inside the map; radial distance is a strictly monotone function of latitude from the pole; the latitude at the edge of the smaller dimension is MAX_LAT.", "quantifier": "for every body, MAX_LAT and map size", "why_tests_cant": "Tests fix a handful of concrete sizes and values; the claim ranges over all bodies and sizes.", "anchors": ["lib/marc/PolarStereographic.cpp: plot_map, stereo_rho"]}
{"id": "C52", "title": "Orthographic maps plot only points of the body surface, on the near side", "statement": "Every plotted point lies on the spheroid, at the map position of its orthographic projection, on the hemisphere facing the observer; each offset is plotted at most once.", "quantifier": "for every body, sub-observer point, position angle and map size", "why_tests_cant": "Tests fix a handful of concrete sizes and values; the claim ranges over all views.", "anchors": ["lib/marc/Orthographic.cpp: plot_map"]}
{"id": "C53", "title": "Scaled virtual planes fit the integer map type", "statement": "For latitude, longitude and cosine planes, whenever scale_and_offset succeeds for the map type, every physical value v of the plane maps to scale*v+offset inside the type's range and scale >= 1 is a power of ten.", "quantifier": "for every integer map type and every physical value of the plane", "why_tests_cant": "Tests fix a handful of concrete sizes and values; the claim ranges over all physical values.", "anchors": ["lib/marc/details/scale_and_offset.h", "src/LatitudeImageFactory.cpp", "src/LongitudeImageFactory.cpp", "src/MuImageFactory.cpp", "src/Mu0ImageFactory.cpp", "src/CosPhaseImageFactory.cpp"]}
{"id": "C54", "title": "scale_and_offset success means the data fit and scale >= 1", "statement": "Whenever scale_and_offset<T>(min,max) returns true, scale is a power of ten >= 1 and scale*[min,max]+offset lies within T's range; it returns false for min > max, non-finite or too wide ranges.", "quantifier": "for every min, max and integer type T", "why_tests_cant": "Tests fix a handful of concrete sizes and values; the claim ranges over all min/max pairs.", "anchors": ["lib/marc/scale_and_offset.h", "lib/marc/details/scale_and_offset.h"]}
{"id": "C55", "title": "Stored virtual plane data can be converted back with the reported scale and offset", "statement": "For a virtual image, BSCALE*stored+BZERO with the image's scale() and offset() gives back the physical value (before truncation), and read_data succeeds exactly when the underlying computation does.", "quantifier": "for every non-zero scale, offset and value", "why_tests_cant": "Tests fix a handful of concrete sizes and values; the claim ranges over all values.", "anchors": ["lib/marc/VirtualImage.cpp: read_data, scale, offset", "src/MapCommand.cpp: write_virtual_image_facts"]}
{"id": "C56", "title": "Latitude and longitude planes report degrees in their documented range", "statement": "LongitudeImage yields the longitude modulo 360 in [0,360]; LatitudeImage yields a value in [-90,90], graphic or centric as requested, and rejects latitudes outside +-90 degrees.", "quantifier": "for every latitude and longitude", "why_tests_cant": "Tests fix a handful of concrete sizes and values; the claim ranges over all angles including many turns.", "anchors": ["lib/marc/LongitudeImage.cpp: read_data_i", "lib/marc/LatitudeImage.cpp: read_data_i"]}
{"id": "C57", "title": "Each plane is written once, to its own region of the map file, in order", "statement": "A map image with P planes accepts exactly P plane writes of matching size, the n-th one occupying elements (n-1)*N+1..n*N; further or mismatched writes are refused and change nothing.", "quantifier": "for every plane size, number of planes and history of writes including failing ones", "why_tests_cant": "Tests fix a handful of concrete sizes and values; the claim ranges over all histories of writes.", "anchors": ["src/FITS_image_t.cpp: image::write", "src/FITS_image.cpp: image::image"]}
{"id": "C58", "title": "User supplied map parameters are never overridden by source image parameters", "statement": "Merging automatically populated parameters into user-supplied ones keeps every user-supplied value; unset values are filled in.", "quantifier": "for every user parameter set and every sequence of merged parameter sets", "why_tests_cant": "Tests fix a handful of concrete sizes and values; the claim ranges over all histories of merges.", "anchors": ["src/map_parameters.cpp: merge, is_mergeable"]}
{"id": "C59", "title": "The automatically chosen map data type can hold every plane", "statement": "When no DATA_TYPE is given the merged BITPIX never decreases the data size required by any merged plane and does not depend on the plane order.", "quantifier": "for every list of plane data types", "why_tests_cant": "Tests fix a handful of concrete sizes and values; the claim ranges over all orders and multisets of planes.", "anchors": ["src/map_parameters.cpp: merge"]}
{"id": "C60", "title": "User data limits of a plane win over defaults", "statement": "SourceImageFactory::minimum/maximum keep the first value set; later settings (file DATAMIN/DATAMAX or plane defaults) do not change it; NaN is rejected.", "quantifier": "for every history of settings", "why_tests_cant": "Tests fix a handful of concrete sizes and values; the claim ranges over all histories.", "anchors": ["src/SourceImageFactory.cpp: minimum, maximum"]}
{"id": "C61", "title": "Mosaic limits are the combined limits of its images", "statement": "When every image of a mosaic has a minimum (maximum), the mosaic's limits become the least minimum (greatest maximum); no uninitialised value is used.", "quantifier": "for every list of two or more photo factories", "why_tests_cant": "Tests fix a handful of concrete sizes and values; the claim ranges over all lists.", "anchors": ["src/MosaicImageFactory.cpp: MosaicImageFactory::make"]}
{"id": "C62", "title": "An existing map file is replaced only by a new complete attempt", "statement": "If producing a map fails because its parameters cannot be determined, a previously existing map file is left in place.", "quantifier": "for every failure point of map creation", "why_tests_cant": "Failure points and prior file states cannot be exhaustively staged by unit tests.", "anchors": ["src/MapCommand.cpp: MapCommand::execute"]}
{"id": "C63", "title": "Progress display prints each step exactly once", "statement": "For one map the console shows the same complete sequence of dots and percentages ending in 100% and newline, independent of how notifications are grouped.", "quantifier": "for every map size and every non-decreasing sequence of counts ending at the map size", "why_tests_cant": "Tests fix a handful of concrete sizes and values; the claim ranges over all notification histories.", "anchors": ["src/ProgressConsole.cpp: Console::notify"]}
{"id": "C64", "title": "Longitude entries are normalised to the body's convention", "statement": "A longitude entry x (|x| <= 360) with suffix E, W or none denotes the same physical longitude after conversion to the body's native direction, in [0,360].", "quantifier": "for every longitude, suffix and rotation direction", "why_tests_cant": "Tests fix a handful of concrete sizes and values; the claim ranges over all values.", "anchors": ["src/parse.yy: longitude, circle_angle"]}
{"id": "C65", "title": "Latitude entries are accepted exactly in range and signed by hemisphere", "statement": "A latitude entry is accepted exactly when in [-90,90] (or [0,90] with N/S); S negates; G converts planetographic to planetocentric.", "quantifier": "for every latitude and suffix", "why_tests_cant": "Tests fix a handful of concrete sizes and values; the claim ranges over all values.", "anchors": ["src/parse.yy: latitude, latitude_sub"]}
{"id": "C66", "title": "User configuration defaults apply to all planes", "statement": "A DATA_MIN, DATA_MAX or grid interval in the user configuration file is the default for every later plane/map that does not override it; values not set keep the internal defaults.", "quantifier": "for every user configuration content and every map file", "why_tests_cant": "Tests fix a handful of concrete sizes and values; the claim ranges over all configurations.", "anchors": ["src/parse.yy: user_file_parse, plane_size, grid_yes_or_no", "doc/MaRC_input.texi: User Configuration File"]}
{"id": "C67", "title": "Options of one map or plane do not leak into the next", "statement": "The configuration of each map and plane is determined by its own entries and the defaults, not by the entries of earlier maps or planes.", "quantifier": "for every sequence of map and plane entries", "why_tests_cant": "Tests fix a handful of concrete sizes and values; the claim ranges over all sequences of entries.", "anchors": ["src/parse.yy: simple_c, p_stereo, ortho, lat_plane, image_setup"]}
{"id": "C68", "title": "Plane numbering and counts are enforced", "statement": "With PLANES: n, a map is accepted only if it defines exactly n planes, and explicit plane numbers are 1,2,3,... in order and at most n.", "quantifier": "for every sequence of plane entries", "why_tests_cant": "Tests fix a handful of concrete sizes and values; the claim ranges over all sequences.", "anchors": ["src/parse.yy: plane_size, map_setup, planes"]}
{"id": "C69", "title": "Body radii entries determine a consistent spheroid", "statement": "From any two of equatorial radius, polar radius and flattening, validation computes the third consistently (f = (eq-pol)/eq) and accepts exactly entries describing eq >= pol > 0.", "quantifier": "for every triple of values", "why_tests_cant": "Tests fix a handful of concrete sizes and values; the claim ranges over all values.", "anchors": ["src/parse_scan.cpp: Radii::validate"]}
{"id": "C70", "title": "Arithmetic expressions evaluate by usual precedence and division by zero is an error", "statement": "An expression evaluates according to the grammar's precedence, variables keep their last assigned value, and division by zero is always reported instead of producing a value.", "quantifier": "for every expression", "why_tests_cant": "Tests fix a handful of concrete sizes and values; the claim ranges over all expressions.", "anchors": ["src/parse.yy: expr", "src/calc.cpp"]}
{"id": "C71", "title": "Calculator symbols are unique and persistent", "statement": "Looking a symbol up after inserting it finds it; inserting never disturbs other symbols; built-in functions remain available.", "quantifier": "for every history of insertions", "why_tests_cant": "Tests fix a handful of concrete sizes and values; the claim ranges over all histories.", "anchors": ["src/calc.cpp: symrec::putsym, getsym"]}
{"id": "C72", "title": "The process exit status reflects every map", "statement": "The program succeeds only if every map command succeeds; a failing command does not prevent the later ones from running unless an exception escapes.", "quantifier": "for every list of commands and outcomes", "why_tests_cant": "Tests fix a handful of concrete sizes and values; the claim ranges over all outcome sequences.", "anchors": ["src/marc.cpp: main"]}
{"id": "C73", "title": "Command line files are exactly the non-option arguments", "statement": "All arguments that are not options, and all arguments after '--', are processed as input files, in order; no argument is lost.", "quantifier": "for every argument list", "why_tests_cant": "Tests fix a handful of concrete sizes and values; the claim ranges over all argument lists.", "anchors": ["src/command_line.cpp: command_line::parse"]}
{"id": "C74", "title": "The unbracketed root search returns only converged Newton iterates", "statement": "root_find(y, x0, f) either throws runtime_error or returns a finite r that is one Newton step r = x1 - (f(x1)-y)/s away from a point x1 indistinguishable from it, where s != 0 is the five-point slope estimate at x1; it never returns NaN.", "quantifier": "for every real function f, target y and guess x0", "why_tests_cant": "Tests fix a handful of functions; the claim ranges over all functions, targets and guesses.", "anchors": ["lib/marc/root_find.cpp: newton_raphson, MaRC::root_find(double,double,...)"]}
{"id": "C75", "title": "magnitude is the Euclidean norm and to_unit_vector normalises", "statement": "Vector::magnitude returns the square root of the vector's inner product with itself; to_unit_vector of a non-zero vector yields the vector of length 1 with the same direction.", "quantifier": "for every vector of every size that compiles (1, 2 or 3 elements)", "why_tests_cant": "Tests fix a handful of vectors; the claim ranges over all real elements.", "anchors": ["lib/marc/details/vector.h: magnitude", "lib/marc/Vector.h: magnitude, to_unit_vector"]}
{"id": "C76", "title": "A value returned by the bracketed root search is a solution to working precision", "statement": "For continuous f, root_find(y, xl, xh, f) returns an end point at which f equals y to working precision, a point within two epsilons of an exact solution, or a point reached by a Newton step shorter than two epsilons.", "quantifier": "for every continuous function f, target y and bracket", "why_tests_cant": "Tests fix a handful of functions; the claim ranges over all continuous functions.", "anchors": ["lib/marc/root_find.cpp: MaRC::root_find(double,double,double,...)"]}
{"id": "C77", "title": "A mosaic has data exactly where one of its images has", "statement": "MosaicImage::read_data reports data at a point exactly when at least one of its images has data there, for each of the three compositing strategies.", "quantifier": "for every list of images and every point", "why_tests_cant": "Tests fix a handful of images; the claim ranges over all lists of images and answers.", "anchors": ["lib/marc/MosaicImage.cpp: MosaicImage::read_data", "lib/marc/first_read.cpp", "lib/marc/unweighted_average.cpp", "lib/marc/weighted_average.cpp"]}
{"id": "C78", "title": "The sub-observer point of a view is at the given body center", "statement": "With the body center given in pixels, latlon2pix(sub-observer latitude, longitude) is the given center sample and line.", "quantifier": "for every body, distance, resolution, optical axis, center and position angle", "why_tests_cant": "Tests use a few fixed views; the claim ranges over all real inputs.", "anchors": ["lib/marc/ViewingGeometry.cpp: finalize_setup, rot_matrices, latlon2pix"]}
{"id": "C79", "title": "The given optical-axis position is seen at the optical axis", "statement": "With the latitude and longitude at the optical axis given, latlon2pix of that point is the optical axis sample and line.", "quantifier": "for every body, view and position on its surface", "why_tests_cant": "The test suite only uses a position on the observer's own meridian; the claim ranges over all longitudes.", "anchors": ["lib/marc/ViewingGeometry.cpp: finalize_setup, rot_matrices, latlon2pix"]}
{"id": "C80", "title": "North points to the given position angle", "statement": "In a view set up with a position angle, the projection of the body's polar axis points to that angle, counterclockwise from the image's up direction.", "quantifier": "for every view", "why_tests_cant": "Tests use a few fixed angles and latitudes; the claim ranges over all of them.", "anchors": ["lib/marc/ViewingGeometry.h: position_angle", "lib/marc/ViewingGeometry.cpp: rot_matrices"]}
{"id": "C81", "title": "The lens model is applied to image coordinates", "statement": "A point seen at the lens's optical axis (where the Galileo lens has no distortion) is mapped to the same pixel with and without the lens correction.", "quantifier": "for every view of a Galileo image with the optical axis at (400, 400)", "why_tests_cant": "Tests check the correction class alone; the claim is about its use for all views.", "anchors": ["lib/marc/ViewingGeometry.cpp: latlon2pix, pix2latlon", "lib/marc/GLLGeometricCorrection.cpp"]}
{"id": "C82", "title": "Sky removal works for every accepted view", "statement": "For every view that finalize_setup accepts, body_mask returns a mask.", "quantifier": "for every way of specifying a view", "why_tests_cant": "Tests do not combine the optical-axis setup with sky removal; the claim ranges over all setups.", "anchors": ["lib/marc/ViewingGeometry.cpp: pix2latlon, body_mask", "lib/marc/PhotoImageFactory.cpp: make"]}
{"id": "C83", "title": "Mercator distortion is the local scale", "statement": "Mercator::distortion(latg) is the ratio of lengths on the map to lengths on the body at planetographic latitude latg, in every direction, taking the equator as 1.", "quantifier": "for every oblate spheroid and every latitude other than the poles", "why_tests_cant": "Tests check two latitudes of one body; the claim is about a derivative at all latitudes of all bodies.", "anchors": ["lib/marc/Mercator.cpp: distortion"]}
{"id": "C84", "title": "Polar stereographic distortion is the local scale", "statement": "PolarStereographic::distortion(latg) is the ratio of lengths on the map to lengths on the body at planetographic latitude latg, taking the pole as 1.", "quantifier": "for every oblate spheroid and every latitude of the mapped hemisphere", "why_tests_cant": "Tests check that it is 1 at the pole and larger at the equator of one body; the claim is about a derivative at all latitudes of all bodies.", "anchors": ["lib/marc/PolarStereographic.cpp: distortion, rho_coefficient, distortion_coefficient"]}
{"id": "C85", "title": "Orthographic views are the requested ones", "statement": "The Orthographic constructor accepts exactly sub-observer latitudes in [-90, 90] and sub-observer longitudes and position angles in [-360, 360] (throwing invalid_argument otherwise); the map is then drawn for that sub-observer point and position angle, at the given kilometres per pixel (or, by default, with the body filling 90% of the smaller side), with the requested point in the requested place.", "quantifier": "for every body, sub-observer point, position angle, resolution, center and map size", "why_tests_cant": "Tests construct two projections; the claim is about every combination of options.", "anchors": ["lib/marc/Orthographic.cpp: Orthographic, map_parameters"]}
{"id": "C86", "title": "A requested map center is accepted exactly when it is visible", "statement": "The Orthographic constructor with a requested center latitude and longitude throws invalid_argument exactly if that surface point is not visible to the observer.", "quantifier": "for every body, sub-observer point and requested point", "why_tests_cant": "Tests try one invisible point; the claim ranges over all points and views, including the wrap-around of longitudes.", "anchors": ["lib/marc/Orthographic.cpp: Orthographic, visible_longitude"]}
{"id": "C87", "title": "Orthographic grids show the visible grid lines where they are", "statement": "The white cells of an orthographic grid are exactly the cells nearest to the projections of the visible points of the latitude and longitude lines.", "quantifier": "for every body, view, size and interval", "why_tests_cant": "Tests do not check the position of grid lines; the claim ranges over all views and rotation senses.", "anchors": ["lib/marc/Orthographic.cpp: plot_grid"]}
{"id": "C88", "title": "Cosine planes contain cosines of the viewing angles", "statement": "MU, MU0 and COS_PHASE planes contain the cosine of the angle between surface normal and observer, surface normal and sun, and sun and observer, with the sub-observation and sub-solar points given in degrees; the values lie in [-1,1] and the assertions on that never fail.", "quantifier": "for every oblate body, point of the surface, sub-observation point, sub-solar point and range", "why_tests_cant": "Tests fix a few bodies and points; the claim ranges over all of them.", "anchors": ["lib/marc/MuImage.cpp", "lib/marc/Mu0Image.cpp", "lib/marc/CosPhaseImage.cpp"]}
{"id": "C89", "title": "A map command that reports success has written its map", "statement": "If MapCommand::execute returns 0, the map file holds an image array of the map's shape and data type whose header has exactly the expected cards, every plane's data is in its place in the array in the order of the planes, and the grid extension is there if one was asked for.", "quantifier": "for every map command and every sequence of results of the FITS library", "why_tests_cant": "Failures of single library calls and arbitrary numbers of planes cannot be staged exhaustively.", "anchors": ["src/MapCommand.cpp: MapCommand::execute, write_grid, write_virtual_image_facts", "src/MapCommand_t.cpp: make_map_planes"]}
{"id": "C90", "title": "Position angles keep their direction", "statement": "POSITION_ANGLE accepts exactly angles of at most 360 degrees in magnitude; CW denotes the opposite of CCW; the stored angle is in [0,360] and is the same direction as the entry.", "quantifier": "for every angle and suffix", "why_tests_cant": "Tests fix a handful of concrete sizes and values; the claim ranges over all values.", "anchors": ["src/parse.yy: position_angle, circle_angle"]}
{"id": "C91", "title": "Integer keywords have the value that is written", "statement": "SAMPLES, LINES, PLANES, plane numbers, NIBBLE and DATA_BLANK take exactly the number written in the file; a number that is not an integer of the required range is refused.", "quantifier": "for every number the scanner accepts", "why_tests_cant": "Tests fix a handful of concrete sizes and values; the claim ranges over all texts of numbers.", "anchors": ["src/parse.yy: integer, from_string", "src/lexer.ll: NUM"]}
{"id": "C92", "title": "A blank value must fit the map data type", "statement": "DATA_BLANK is accepted exactly when the map holds integers and the value is representable in the map's data type; the accepted value becomes the map's blank value.", "quantifier": "for every blank value and data type", "why_tests_cant": "Tests fix a handful of concrete sizes and values; the claim ranges over all values.", "anchors": ["src/parse.yy: data_blank, verify_data_blank"]}
{"id": "C93", "title": "Reading input files never uses an absent object", "statement": "Whatever map entries and user configuration are read, in whatever order, the parser never dereferences a null pointer or an empty optional: each set-up object exists when an entry refers to it.", "quantifier": "for every sequence of input files and entries", "why_tests_cant": "Tests read a few files; the claim ranges over all sequences of entries.", "anchors": ["src/parse.yy: map_setup, plane, photo_image, mosaic, nibble, geometry entries"]}
{"id": "C94", "title": "A source image is read completely or refused", "statement": "Reading a FITS source image either gives every pixel of the image, line by line in the order of the file with blank pixels as NaN, together with its width and height, or throws; a two-dimensional image of at least 2x2 pixels is read exactly when no FITS call fails. No memory outside the program's objects is touched.", "quantifier": "for every FITS image, of any number of axes and any size, and every answer of the FITS library", "why_tests_cant": "Tests read a few small files; the claim ranges over all dimensions, contents and failures.", "anchors": ["src/FITS_file.cpp: input_file::read"]}
{"id": "C95", "title": "A photo shows the image in the file", "statement": "The photo made from a source holds the pixels of its file, mirrored as asked for and less the flat field of the same size, and can be made once; a point of the body has a value in the plane exactly when it is visible and seen at a pixel inside the nibbles that is not blank, and the value is that of the pixel whose line of sight meets the body there.", "quantifier": "for every source file, flat field, configuration, viewing geometry and point", "why_tests_cant": "Tests check single geometries; the claim ties all points of the body to the pixels of any file.", "anchors": ["src/PhotoImageFactory.cpp: make, flat_field_correct", "lib/marc/PhotoImage.cpp: read_data", "lib/marc/ViewingGeometry.cpp: latlon2pix"]}
{"id": "C96", "title": "An input file has one meaning", "statement": "Whatever the text of an input file, the scanner and the rules of the grammar allow at most one tree of entries for it; the same holds for the files of a run.", "quantifier": "for every text and every sequence of texts", "why_tests_cant": "Tests parse a few files; ambiguity may hide in any combination of optional entries.", "anchors": ["src/lexer.ll: all rules", "src/parse.yy: all rules"]}
{"id": "C97", "title": "Layout does not matter", "statement": "Two input files that differ only in blanks, line ends, comments, capital or small letters of keywords and synonyms of keywords are read as the same entries.", "quantifier": "for every two layouts of every sequence of tokens", "why_tests_cant": "Tests contain one layout per file; the claim ranges over all layouts of all files.", "anchors": ["src/lexer.ll: start conditions, comments, case-insensitive, keywords"]}
{"id": "C98", "title": "Each value is read under its keyword", "statement": "A file is read as a tree of entries exactly when it gives, in the order of the manual, each value of the tree under the keyword of that value: no value is taken from another keyword, none is lost and none appears that was not written, but for the value of MINNAERT.", "quantifier": "for every layout of every file and every tree of entries", "why_tests_cant": "Tests give a few keywords; a swapped or dropped value shows only with the keyword concerned.", "anchors": ["src/lexer.ll: keywords", "src/parse.yy: rules of map, plane, image, projection, user file"]}
{"id": "C99", "title": "Joined map files hold the maps of both", "statement": "If two map files are joined with a line end between them, the result is read as the maps of the first file followed by those of the second.", "quantifier": "for every two map files in any layout", "why_tests_cant": "Tests join no files; the scanner's start condition at the end of a file might leak into the next.", "anchors": ["src/lexer.ll: start conditions", "src/parse.yy: maps"]}
{"id": "C100", "title": "The elements of a map are what the images show", "statement": "If no CFITSIO call fails and a command made from input files succeeds, element (plane j, line k, sample i) of the file's image is the datum which image j yields at the point the projection plots in that cell, converted to the map's type, if there is one and it is within the limits of the plane, and the blank value otherwise; the header has the image's scale and offset under BSCALE and BZERO (one plane) or in the history.", "quantifier": "for every input text, every set of external functions, every projection, type, number of planes and cell", "why_tests_cant": "Tests check single parts; an offset or a plane mixed up between parts shows only in the whole.", "anchors": ["src/MapCommand_t.cpp:28-107", "src/MapCommand.cpp:129-189", "lib/marc/MapFactory_t.cpp", "src/FITS_image_t.cpp"]}
{"id": "C101", "title": "Computed planes can be decoded", "statement": "In every plane of mu, mu0, phase, latitude or longitude without given limits, in any projection and map type, a plotted element decoded by the scale and offset in the header differs from the number computed at its point by no more than a step of the type (and rounding); where nothing is computed the element is blank.", "quantifier": "for every map type, projection, number of planes, cell and set of external functions with accurate log10 and pow", "why_tests_cant": "Tests compare a few values; scale, offset, clipping and rounding interact differently for each type.", "anchors": ["lib/marc/VirtualImage.cpp", "lib/marc/details/scale_and_offset.h", "lib/marc/Map_traits_t.cpp", "src/MapCommand_t.cpp:28-107"]}
{"id": "C102", "title": "Latitude planes hold the latitudes of the lines", "statement": "In a simple cylindrical map with planetocentric latitudes from LO_LAT to HI_LAT, every element of line k of a planetocentric latitude plane decodes to LO_LAT + (k + 1/2)(HI_LAT - LO_LAT)/lines to within a step of the type and 1e-12 degrees, in IEEE arithmetic.", "quantifier": "for all limits at least 1e-9 degrees per line apart, sizes, types and cells", "why_tests_cant": "Rounding errors accumulate over the chain degrees, radians, degrees, scaling; no finite set of sizes shows that they stay below a bound.", "anchors": ["lib/marc/SimpleCylindrical.cpp", "lib/marc/LatitudeImage.cpp", "lib/marc/VirtualImage.cpp"]}
{"id": "C103", "title": "Longitude planes hold the longitudes of the samples", "statement": "In such a map every element of sample i of a longitude plane decodes, modulo 360 and to within a step of the type and 1e-11 degrees, to the longitude of the middle of the sample, counted from the west (retrograde) or from the east (prograde) end; and it lies between 0 and 360 to within the step.", "quantifier": "for all limits, sizes below 2^52 samples, types and cells", "why_tests_cant": "As for C102; the wrap at 0 and 360 degrees is hit only by special sizes and limits.", "anchors": ["lib/marc/SimpleCylindrical.cpp", "lib/marc/LongitudeImage.cpp", "lib/marc/VirtualImage.cpp"]}
{"id": "C104", "title": "SIMPLE_C without options maps the whole body", "statement": "Of the n-th map of the input files, if it says SIMPLE_C without options, a LATITUDE plane holds -90 + 180(k + 1/2)/lines and a LONGITUDE plane 360(i + 1/2)/samples (counted down for prograde bodies), in the file the n-th command writes.", "quantifier": "for every list of map files in which no plain LATITUDE or SIMPLE_C follows LATITUDE: GRAPHIC, every such map and cell", "why_tests_cant": "It spans parser, projection, image and file; tests of the parts do not show that they fit together.", "anchors": ["src/parse.yy: simple_c, latitude, longitude", "lib/marc/SimpleCylindrical.cpp", "src/MapCommand_t.cpp"]}
{"id": "C105", "title": "A photo is read and seen as its image entry says", "statement": "The factory of a plane with one IMAGE entry reads the file named; flat field, turns, lens correction, interpolation, sky removal and nibbles are those of the entry; every member of the viewing geometry (sub-observer and sub-solar points, range, position angle, scale, focal length, optical axis, centre, emission angle limit, terminator) has the value the entry gives it, in the unit the code uses, or its default.", "quantifier": "for every list of map files without user file in which no plain LATITUDE or SIMPLE_C follows LATITUDE: GRAPHIC, every map and plane", "why_tests_cant": "Sixteen members set by thirteen setters in an order fixed by the grammar; a swapped or dropped call shows only in images that use it.", "anchors": ["src/parse.yy: image_setup, image_geometry, centers, optical_axis", "lib/marc/ViewingGeometry.cpp", "src/PhotoImageFactory.cpp"]}
{"id": "C106", "title": "Elements of photo planes are what the photo has at the plotted points", "statement": "If a map is written without error, each element of a plane of one photo is what the photo has at a point plotted at the element, within the limits of the plane (those of the entry, or else DATAMIN and DATAMAX): the value of the source file, turned and less the flat field, at the pixel where the point is seen, or with INTERPOLATE the interpolated value; nothing outside the nibbles and, with REMOVE_SKY, off the body. An element is blank only if the photo has nothing within the limits at any plotted point.", "quantifier": "for all inputs, projections, viewing geometries, types and cells, and all source files of two axes whose nibbles are not larger than the image", "why_tests_cant": "It joins parser, factories, photo, projection and writer; tests cover one of them at a time.", "anchors": ["src/PhotoImageFactory.cpp", "lib/marc/PhotoImage.cpp", "src/MapCommand_t.cpp", "lib/marc/MapFactory_t.cpp"]}
{"id": "C107", "title": "Elements of mosaic planes are compositions of what the photos have", "statement": "Several IMAGE entries of a plane make a mosaic whose photos follow the entries in their order, averaged as asked for (weighted if nothing is said). If the map is written without error, each element of the plane is the composition of what the photos have at a plotted point, within the limits of the entry: without averaging the datum of the first photo that has one; with averaging the (weighted) mean of the data. An element is blank only if the composition has nothing within the limits at any plotted point. If no photo leaves a NaN behind, the mean is over all photos that have a datum.", "quantifier": "for all inputs, projections, numbers of photos, viewing geometries, types and cells, and all source files of two axes whose nibbles are not larger than the image", "why_tests_cant": "What one photo leaves in the shared variable changes the answers of the next; the combinations grow with the number of photos.", "anchors": ["src/MosaicImageFactory.cpp", "lib/marc/MosaicImage.cpp", "lib/marc/first_read.cpp", "lib/marc/unweighted_average.cpp", "lib/marc/weighted_average.cpp", "lib/marc/PhotoImage.cpp"]}
{"id": "C108", "title": "Headers of map files", "statement": "A map command that succeeds leaves a file whose first array has SAMPLES by LINES by number-of-planes elements of the type of DATA_TYPE, or else of the BITPIX of the first plane of photos (of its last photo). Its header holds, in this order and nothing else: BLANK (that of the entry, or else of the first plane of photos that has one; for whole numbers only), AUTHOR and ORIGIN (of the entry, or else of the first plane that has one), OBJECT (the BODY), the COMMENTs, the name of the projection, for each computed plane of a whole-number map BUNIT with BSCALE and BZERO (as HISTORY cards if there are several planes), and DATAMIN and DATAMAX. A grid array with its comments and the name of the projection follows exactly when GRID says YES.", "quantifier": "for all input files, with or without user file, all projections, planes, source files, and earlier contents of the map file", "why_tests_cant": "Which of the entry, the planes and the photos of a mosaic a value comes from depends on all combinations of what is given and what is missing.", "anchors": ["src/MapCommand.cpp", "src/MapCommand_t.cpp", "src/map_parameters.cpp", "src/PhotoImageFactory.cpp", "src/MosaicImageFactory.cpp", "src/LatitudeImageFactory.cpp", "src/parse.yy"]}
{"id": "C109", "title": "DATA_SCALE and DATA_OFFSET are placed in the header", "statement": "Using DATA_OFFSET or DATA_SCALE causes BZERO and BSCALE entries in the header of the map array (doc/MaRC_input.texi:428-435).", "quantifier": "for all maps with DATA_OFFSET or DATA_SCALE", "why_tests_cant": "The absence of the cards is claimed (refuted) for every map of photos, not for one file.", "anchors": ["src/MapCommand_t.cpp:84-105", "src/parse.yy:687-696", "src/map_parameters.cpp", "doc/MaRC_input.texi"]}
{"id": "C110", "title": "The elements of Mercator maps", "statement": "In the file written for a Mercator map of the input text, the element at line k and sample i of a longitude plane stands for the longitude of the middle of the sample: 360 * (i + 1/2) / samples degrees, counted westward from 360 on prograde bodies, up to whole turns, the scaling step of the element type and 1e-11 degree. The element of a latitude plane stands for the planetocentric latitude found for the ordinate 2*pi/samples * (k + 1/2 - lines/2): every sample of the line the same, cells square at the equator, within the scaling step and 1e-12 degree.", "quantifier": "for all input texts, map sizes below 2^52, radii, element types, numbers and orders of planes and outside functions meeting IEEE 754", "why_tests_cant": "All map sizes, bodies and roundings, from the text to the elements of the file; the search for the latitude is any function.", "anchors": ["lib/marc/Mercator.cpp", "src/MapCommand_t.cpp", "src/parse.yy"]}
{"id": "C111", "title": "The grids of cylindrical maps in files", "statement": "In the file written for a simple cylindrical (whole body) or Mercator map of the input text with GRID: YES, the second array is black (0) but for white (255) rows and columns: the column of each longitude 360 - j * interval above 0, at samples * longitude / 360 counted westward on prograde bodies, and the row of each latitude -90 + j * interval below 90, at lines * (latitude + 90) / 180 or, for Mercator, at lines / 2 + x * samples / (2 * pi) where x is the distance of the latitude from the equator; each the nearest whole number, up to rounding errors beside the middle between two.", "quantifier": "for all input texts, user files, map sizes with less than 2^53 elements, intervals that are multiples of 1/1024 degree, bodies and outside functions meeting IEEE 754", "why_tests_cant": "All map sizes, intervals and bodies, every element of the array, with the roundings of doubles.", "anchors": ["lib/marc/SimpleCylindrical.cpp:134-200", "lib/marc/Mercator.cpp:166-217", "lib/marc/MapFactory.cpp:14-41", "src/MapCommand.cpp:197-260"]}
{"id": "C112", "title": "The program from its arguments and the characters of its input files to its map files", "statement": "When main() returns 0, every file named on the command line (all arguments, or those around one \"--\") was opened and read as the tree that the grammar gives its characters, after the configuration file, every map entry of these files was made without an error, the file of each name holds what the last map entry of that name makes, and all other files are as before. For a simple cylindrical map of the whole body the elements of its latitude and longitude planes in that file stand for the middles of the cells of SAMPLES by LINES as written in the input text. The maps are made one after the other in the order of their entries, each from the files that the ones before it left, even if some of them report a problem; main() returns 0 if none did and 1 if some did. If any input file cannot be opened or is not in the language, no map is made, not even those of the files before it. Options and missing arguments end the process with the codes of C73 and nothing is written.", "quantifier": "for all environments, argument lists, texts of all files, contents of the file system, CFITSIO results and outside functions", "why_tests_cant": "All argument lists and all input texts, and every file of the file system after the run.", "anchors": ["src/marc.cpp:96-134", "src/marc.cpp:150-186", "src/marc.cpp:191-247"]}
{"id": "C113", "title": "The configuration file is the one of the XDG specification", "statement": "The configuration file is marc in $XDG_CONFIG_HOME if that is set, not empty and an absolute path, else in $HOME/.config.", "quantifier": "for all environments", "why_tests_cant": "All values of both variables.", "anchors": ["src/marc.cpp:136-186"]}
{"id": "C114", "title": "Polar stereographic maps show the latitude and longitude of each cell", "statement": "For a polar stereographic map in the input, each element of a longitude plane stands for the argument of the offset of the middle of its cell from the middle of the map, in degrees mod 360, counted from the upward axis, eastward or westward by pole and rotation; each element of a planetocentric latitude plane stands for the latitude found for the distance of the cell from the middle, half the shorter side of the map being the projected radius of the edge latitude (0 if none is given), with the sign of the pole; within the resolution of the file and stated rounding bounds.", "quantifier": "for all input files, map sizes below 2^52 on a side, bodies, poles, edge latitudes, data types, elements, and all atan2, hypot and root finding results", "why_tests_cant": "All map sizes, edge latitudes and cells; the offset of a cell is an exact half-integer only for sizes up to 2^52, and the roundings of the radius have to be bounded for all of them.", "anchors": ["lib/marc/PolarStereographic.cpp:115-238", "lib/marc/PolarStereographic.cpp:327-341", "src/parse.yy:1856-1873"]}
{"id": "C115", "title": "Grids of polar stereographic maps in files", "statement": "If a polar stereographic map has a grid, the second image of its file is black but for white dots: 2000 in equal steps around the pole at the radius of each latitude -90 + j * interval below 90, and 2000 in the direction of each longitude 360 - j * interval above 0, at the radii of 2000 equal steps of a circle; each dot is in the cell nearest to its position up to stated rounding bounds, and none is drawn where the radius is not a finite number or the position is outside the map.", "quantifier": "for all input files, intervals that are multiples of 1/1024 degree, map sizes with fewer than 2^53 cells, bodies, poles and edge latitudes, and all sine, cosine, tangent and power results", "why_tests_cant": "All sizes and intervals; a single misplaced or missing dot in some cell of some map violates it.", "anchors": ["lib/marc/PolarStereographic.cpp:240-341", "src/MapCommand.cpp:197-206", "src/parse.yy:1856-1873"]}
{"id": "C116", "title": "Orthographic maps show the point of the body seen in each cell", "statement": "For an orthographic map in the input, of a sphere or seen from above the equator of a spheroid at most twice as wide as high, at most 89 degrees from the equator, with the body center in the middle or at a given pixel: each element of a planetocentric latitude or of a longitude plane either stands for the latitude or longitude (mod 360), within the resolution of the file and 1e-12 or 1e-11 degrees, of a point of the body on the near side that projects to the middle of the cell up to 1e-12 equatorial radii, or it is the blank value and the middle of the cell is not inside the outline of the disk shrunk by about 1e-12.", "quantifier": "for all input files, map sizes below 2^52 on a side, radii from 1e-3 to 1e9 km, rotation senses, sub-observer points, position angles, resolutions, data types, elements, and all libraries whose sine, cosine, hypot and atan2 have the stated accuracy", "why_tests_cant": "All views, sizes and cells; near the limb the discriminant cancels and any cell may fall on either side of it, so every rounding of the quadratic solver has to be bounded.", "anchors": ["lib/marc/Orthographic.cpp:152-405", "lib/marc/Orthographic.cpp:597-654", "lib/marc/Mathematics.h:146-201", "src/parse.yy:1620-1830"]}
{"id": "C117", "title": "The geometry of bodies in doubles is that of the spheroid", "statement": "For bodies from 1 m to 1e9 km at most twice as wide as high and for a mathematical library whose functions are within 1e-15 of the real ones, the member functions of OblateSpheroid, computed in doubles, agree with the geometry of the spheroid: at any point of the surface, given by doubles within w of its latitude and longitude, centric_radius() is within (7e-15 + 4w) equatorial radii of its distance from the center, graphic_latitude() within 3e-15 + 4w of the latitude of the normal, centric_latitude() within 3e-15 + 4w of the latitude of the point whose normal has the given latitude, mu0() within 2e-14 + 13w of the cosine of the angle between the normal and the direction to the sun, and mu() and cos_phase() within 1e-12 + 500w of the cosines of the angles between the direction to the observer and the normal, and to the sun, for observers at least an equatorial radius above the surface.", "quantifier": "All such libraries, bodies, latitudes and longitudes, w up to 1e-6, sub-observer and sub-solar points, ranges up to 1e20 km.", "why_tests_cant": "The error is a bound over all bodies, points and observers; tests compare a few points, and to values computed the same way.", "anchors": ["lib/marc/OblateSpheroid.cpp:47-200"]}
{"id": "C118", "title": "Planes MU, MU0 and PHASE show the cosines of the geometry", "statement": "In every file made by a completed run, whatever the projection, an element of a plane MU, MU0 or PHASE at a cell whose plotted point is within w of a point of the surface stands for the cosine of the angle of emission, incidence or phase at that point, to within the step of the data type plus the error of the function: 1e-12 + 500w, 2e-14 + 13w and 1e-12 + 500w.", "quantifier": "All commands from input files, projections, data types, cells, points of the surface and offsets w from 5e-15 to 1e-6.", "why_tests_cant": "It relates the bytes of the file to the geometry of the body through conversion to radians, double arithmetic, scaling and rounding for every cell of every map.", "anchors": ["lib/marc/OblateSpheroid.cpp:122-200", "lib/marc/MuImage.cpp:13-51", "lib/marc/Mu0Image.cpp:13-48", "lib/marc/CosPhaseImage.cpp:13-57"]}
{"id": "C119", "title": "The cosine planes of simple cylindrical maps are those at the middles of the cells", "statement": "In simple cylindrical maps of planetocentric latitudes, every element of a plane MU, MU0 or PHASE stands for the cosine at the point of the surface at the latitude of the middle of its line and the longitude of the middle of its sample, to within the step of the data type plus 5.1e-11, 1.4e-12 and 5.1e-11.", "quantifier": "All such maps from input files with lines no closer than 1e-9 degrees and fewer than 2^52 samples, all cells.", "why_tests_cant": "It holds for every cell of every map size, body, position of the observer and data type.", "anchors": ["lib/marc/SimpleCylindrical.cpp:64-141", "lib/marc/OblateSpheroid.cpp:122-200", "lib/marc/MuImage.cpp:13-51", "lib/marc/Mu0Image.cpp:13-48", "lib/marc/CosPhaseImage.cpp:13-57"]}
{"id": "C120", "title": "Planes of planetographic latitudes show the latitudes of the normals", "statement": "In simple cylindrical maps of planetocentric latitudes, every element of a plane of planetographic latitudes stands for the latitude of the normal to the surface at the middle of its line, to within the step of the data type plus 3e-12 degrees.", "quantifier": "All such maps from input files with lines no closer than 1e-9 degrees, all bodies at most twice as wide as high, all cells.", "why_tests_cant": "It holds for every line of every map and every body; the error bound includes the tangent near the poles.", "anchors": ["lib/marc/LatitudeImage.cpp:27-49", "lib/marc/OblateSpheroid.cpp:106-120", "lib/marc/SimpleCylindrical.cpp:64-141"]}
{"id": "C121", "title": "The cosine planes of orthographic maps are those at the points seen", "statement": "In orthographic maps of a sphere, or seen from above the equator of a spheroid at most twice as wide as high, every element of a plane MU, MU0 or PHASE stands for the cosine at a point of the near side that projects to the middle of its cell up to 1e-12 equatorial radii, to within the step of the data type plus 6e-12, 1.5e-13 and 6e-12, or it is the blank value and the middle of the cell is not inside the outline of the disk shrunk by about 1e-12.", "quantifier": "All such maps from input files below 2^52 cells on a side, all sub-observer and sub-solar points, position angles, resolutions, data types, cells, and all libraries with the stated accuracy.", "why_tests_cant": "It joins the quadratic solver, the angles and the cosines for every cell of every view; near the limb every rounding matters.", "anchors": ["lib/marc/Orthographic.cpp:152-405", "lib/marc/OblateSpheroid.cpp:122-200", "lib/marc/MuImage.cpp:13-51", "lib/marc/Mu0Image.cpp:13-48", "lib/marc/CosPhaseImage.cpp:13-57"]}
{"id": "C122", "title": "The assertions on cosines hold at every point of the body", "statement": "For every point of the surface, every observer and every sun, the cosine computed for a plane MU, MU0 or PHASE is between -1 and 1, so that the assertion on it holds and the map is made.", "quantifier": "All bodies at most twice as wide as high, all points, all sub-observer and sub-solar points and ranges, all libraries with the stated accuracy.", "why_tests_cant": "The cosine is exceeded by the last bit at a few angles only; whether a given map meets one of them cannot be told from other maps.", "anchors": ["lib/marc/MuImage.cpp:34-51", "lib/marc/Mu0Image.cpp:34-48", "lib/marc/CosPhaseImage.cpp:41-57", "lib/marc/OblateSpheroid.cpp:122-200"]}
{"id": "C123", "title": "Lines of planetographic maps are evenly spaced in the latitude of the normal", "statement": "In simple cylindrical maps of planetographic latitudes the lines divide the range between the latitudes of the normals at LO_LAT and HI_LAT evenly; every element of a plane of latitudes stands for the latitude, planetocentric or that of the normal as asked for, of the point of the surface whose normal is at the middle of its line, to within the step of the data type plus 4e-11 degrees.", "quantifier": "All such maps from input files with lines no closer than 1e-9 degrees, all bodies at most twice as wide as high, all data types, all cells, all libraries with the stated accuracy.", "why_tests_cant": "Conversions to and from planetographic latitude go through tangents near the poles; the bound holds for every line of every map and every body.", "anchors": ["lib/marc/SimpleCylindrical.cpp:45-132", "lib/marc/SimpleCylindrical.h:122-136", "lib/marc/OblateSpheroid.cpp:91-120", "lib/marc/LatitudeImage.cpp:27-49"]}
{"id": "C124", "title": "The cosine planes of planetographic maps are those at the points of their lines", "statement": "In simple cylindrical maps of planetographic latitudes every element of a plane MU, MU0 or PHASE stands for the cosine at the point whose normal is at the middle of its line and whose longitude is that of the middle of its column, to within the step of the data type plus 1e-10, 3e-12 and 1e-10.", "quantifier": "All such maps from input files with lines no closer than 1e-9 degrees and columns below 2^52, all observers and suns, all bodies at most twice as wide as high, all cells.", "why_tests_cant": "It joins the even spacing, the conversion of the latitudes and the cosines for every cell of every map.", "anchors": ["lib/marc/SimpleCylindrical.cpp:45-132", "lib/marc/SimpleCylindrical.h:122-136", "lib/marc/OblateSpheroid.cpp:91-120", "lib/marc/MuImage.cpp:13-51", "lib/marc/Mu0Image.cpp:13-48", "lib/marc/CosPhaseImage.cpp:13-57", "lib/marc/OblateSpheroid.cpp:122-200"]}
{"id": "C125", "title": "Planes of planetographic latitudes of orthographic maps show the latitudes of the normals", "statement": "In orthographic maps of a sphere, or seen from above the equator of a spheroid at most twice as wide as high, every element of a plane of planetographic latitudes stands for the latitude of the normal at a point of the near side that projects to the middle of its cell up to 1e-12 equatorial radii, to within the step of the data type plus 3e-12 degrees, or it is the blank value and the middle of the cell is not inside the outline of the disk shrunk by about 1e-12.", "quantifier": "All such maps from input files below 2^52 cells on a side, all sub-observer points, position angles, resolutions, data types, cells, and all libraries with the stated accuracy.", "why_tests_cant": "The latitude of the normal is computed from that of a point found by solving a quadratic equation; the bound holds for every cell of every view.", "anchors": ["lib/marc/Orthographic.cpp:152-405", "lib/marc/LatitudeImage.cpp:27-49", "lib/marc/OblateSpheroid.cpp:106-120"]}
{"id": "C126", "title": "Planes of cosines, from the arguments of main() to the elements of the files", "statement": "When main() returns 0, the elements of the planes MU, MU0 and PHASE in the file of a map (the last map entry of that name) stand for the cosines of the emission, incidence and phase angles that the input text describes: in simple cylindrical maps for those at the points in the middles of the cells of SAMPLES by LINES, in orthographic maps (of spheres, or from above the equator) for those at a point seen in the middle of the cell, or else they are the blank value, which is that of DATA_BLANK if given, and the middle of the cell is off the disk.", "quantifier": "for all argument lists, input texts, configuration files, bodies at most twice as wide as high, projections of the two kinds, observers and suns, cells, and functions of <cmath> of the stated accuracy", "why_tests_cant": "All input texts and all elements of all maps; the errors of the elementary functions are only bounded.", "anchors": ["src/marc.cpp:191-247", "lib/marc/MuImage.cpp:30-51", "lib/marc/Mu0Image.cpp:30-48", "lib/marc/CosPhaseImage.cpp:32-57", "lib/marc/OblateSpheroid.cpp:122-200"]}
{"id": "C127", "title": "The settings of a photo always name strategies, the last ones given", "statement": "Whatever setters of PhotoImageParameters (and ViewingGeometry::geometric_correction) are called, in whatever order: the photometric correction, interpolation strategy and geometric correction are never null and are the last ones given, or the defaults if none was; a setter throws std::invalid_argument exactly if it is passed a null pointer and then leaves the object as it was; each nibble value is the last one given to that side or to all sides, 0 at first; remove_sky() is what was set last, false at first.", "quantifier": "for all sequences of setter calls and all strategies", "why_tests_cant": "Sequences of calls of any length, with calls that throw among them.", "anchors": ["lib/marc/PhotoImageParameters.cpp:25-133", "lib/marc/ViewingGeometry.cpp:119-134"]}
{"id": "C128", "title": "Planes of angles of simple cylindrical maps with limits, from the arguments of main() to the elements of the files", "statement": "When main() returns 0, the elements of the planes of latitudes and longitudes in the file of a simple cylindrical map (the last map entry of that name) stand for the latitudes and longitudes of the middles of the cells of SAMPLES by LINES between the limits LO_LAT, HI_LAT, LO_LON and HI_LON of the input text: planetocentric latitudes within 1e-12 degree and longitudes within 1e-11 degree, up to whole turns and from 0 to 360 degrees, besides the step of the element type. In planetographic maps the middles are evenly spaced in the latitudes of the normals of the body, and planes of planetographic and of planetocentric latitudes give these points within 4e-11 degree.", "quantifier": "for all argument lists, input texts, configuration files, bodies (at most twice as wide as high for planetographic maps), limits that are not closer than 1e-9 degree per line, cells, element types and functions of <cmath> of the stated accuracy", "why_tests_cant": "All input texts, limits and elements of all maps; the errors of the elementary functions are only bounded.", "anchors": ["src/marc.cpp:191-247", "lib/marc/SimpleCylindrical.cpp", "lib/marc/LatitudeImage.cpp", "lib/marc/LongitudeImage.cpp", "src/MapCommand_t.cpp"]}
{"id": "C129", "title": "Headers, grids and orthographic planes of angles, from the arguments of main() to the files", "statement": "When main() returns 0, the file of a map (the last map entry of that name) holds an array of SAMPLES by LINES by the number of planes, of the element type and with the header cards that the entry in the input text says, and a second array of bytes if and only if GRID is YES. That second array is black but for the rows and columns of the multiples of the grid intervals in simple cylindrical maps of the whole body, and but for the dots along the rings and spokes of these multiples in polar stereographic maps. The elements of planes of planetocentric latitudes and of longitudes of orthographic maps (of spheres, or from above the equator) stand for those of a point seen in the middle of the cell, or are the blank value, which is that of DATA_BLANK if given, and the middle of the cell is off the disk.", "quantifier": "for all argument lists, input texts, configuration files, map sizes, element types, grid intervals that are multiples of 1/1024 degree, observers, cells and outside functions meeting IEEE 754 or of the stated accuracy", "why_tests_cant": "All argument lists and input texts, and every element and header card of the files after the run.", "anchors": ["src/marc.cpp:191-247", "src/MapCommand.cpp", "src/MapCommand_t.cpp", "lib/marc/SimpleCylindrical.cpp", "lib/marc/PolarStereographic.cpp", "lib/marc/Orthographic.cpp"]}
{"id": "C130", "title": "Planes of angles of Mercator and polar stereographic maps, from the arguments of main() to the elements of the files", "statement": "When main() returns 0, the elements of the planes of longitudes and planetocentric latitudes in the file of a Mercator or polar stereographic map (the last map entry of that name) stand for the angles of C110 and C114: the longitudes of the middles of the samples and the latitudes found for the ordinates of the lines of the Mercator map of SAMPLES by LINES cells; the arguments of the offsets of the cells from the middle of the polar map, and the latitudes found for their distances from it.", "quantifier": "for all argument lists, input texts, configuration files, bodies, map sides below 2^52, element types, numbers and orders of planes and outside functions meeting IEEE 754", "why_tests_cant": "All argument lists, input texts and elements of all maps; the search for the latitude is any function.", "anchors": ["src/marc.cpp:191-247", "lib/marc/Mercator.cpp", "lib/marc/PolarStereographic.cpp", "src/MapCommand_t.cpp"]}
