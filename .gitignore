*.vo
*.vok
*.vos
*.glob
.*.aux
*.aux
rocq/Makefile
rocq/Makefile.conf
.Makefile.d
.lia.cache
.nia.cache
*.cache
